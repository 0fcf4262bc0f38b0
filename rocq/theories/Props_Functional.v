(** * C09 - C25: map, filter, reject, partition, find, forEach, reduce, check, pipe, compose. *)
From Verif Require Import Base Num Serie Spec BaseFacts SerieFacts Functional FunctionalFacts F64.
From Coq Require Import Permutation.

Ltac Zify.zify_post_hook ::= Z.div_mod_to_equations.
Opaque f64_of_Z.

(** the doubles of the examples *)
#[local] Instance F64N : Num F64 := f64_num libm0.

Ltac repr_ex := cbn [fst snd]; apply repr_mk; [repeat constructor|lia|reflexivity|reflexivity].

Section C09.
  Context {T : Type} {NT : Num T} {St : Type}.

  Lemma repr_col_len (s : Serie T) xs : repr s 1 (col xs) -> count s = len xs /\ len xs < 4294967296.
  Proof.
    intros Hs; split; [rewrite (repr_count _ _ _ Hs); apply len_col|].
    destruct Hs as (_ & _ & _ & _ & _ & Hn & _); rewrite len_col in Hn; exact Hn.
  Qed.
  Lemma repr_len_bound (s : Serie T) k rows : repr s k rows -> len rows < 4294967296.
  Proof. intros (_ & _ & _ & _ & _ & Hn & _); exact Hn. Qed.
End C09.

(** ** C09 *)
Theorem C09_map_number :
  forall (T : Type) (NT : Num T) (St : Type) (s : Serie T) (st : St) (ys : list T) (st' : St),
  (forall (cb : T -> Z -> M St T) xs,
     repr s 1 (col xs) -> calls cb (enum xs) st ys st' ->
     map_ss cb s st = (Ok (mk 1 (col ys) 3), st')) /\
  (forall (cb : list T -> Z -> M St T) k rows,
     repr s k rows -> calls cb (enum rows) st ys st' ->
     map_vs cb s st = (Ok (mk 1 (col ys) 3), st')).
Proof.
  intros T NT St s st ys st'; split.
  - intros cb xs Hs Hc; unfold map_ss; destruct (repr_col_len s xs Hs) as [-> Hl].
    apply map_num_ok; auto; apply reads_scalar; exact Hs.
  - intros cb k rows Hs Hc; unfold map_vs; rewrite (repr_count s k rows Hs).
    apply map_num_ok; auto; [eapply reads_array; exact Hs|eapply repr_len_bound; exact Hs].
Qed.
Print Assumptions C09_map_number.

(** for a callback without side effects, seen through the accessors *)
Theorem C09_map_number_items :
  forall (T : Type) (NT : Num T) (s : Serie T) (xs : list T) (f : T -> Z -> T),
  repr s 1 (col xs) ->
  exists r, run (map_ss (fun x i => ret (f x i)) s) = Ok r /\
    itemSize r = 1 /\ count r = count s /\
    forall i, 0 <= i < count s ->
      exists x, get_double s i = Ok x /\ get_double r i = Ok (f x i).
Proof.
  intros T NT s xs f Hs.
  destruct (C09_map_number T NT unit s tt (map (fun p => f (fst p) (snd p)) (enum xs)) tt) as [M _].
  exists (mk 1 (col (map (fun p => f (fst p) (snd p)) (enum xs))) 3).
  unfold run; rewrite (M _ xs Hs (calls_pure f (enum xs) tt)).
  destruct (repr_col_len s xs Hs) as [Hc Hl].
  split; [reflexivity|]; split; [reflexivity|]; split.
  { unfold count; simpl; rewrite len_col, len_map; unfold enum, len; rewrite enum_from_length.
    symmetry; exact Hc. }
  intros i Hi; rewrite Hc in Hi.
  destruct (rd_in_range xs i Hi) as (x & Ex & En).
  exists x; split; [rewrite (get_double_repr s xs i Hs Hi); exact Ex|].
  assert (Er : nth_error (map (fun p => f (fst p) (snd p)) (enum xs)) (Z.to_nat i) = Some (f x i)).
  { rewrite nth_error_map; unfold enum; rewrite (nth_error_enum xs 0 _ x En); simpl.
    do 2 f_equal; lia. }
  unfold get_double; simpl; rewrite concat_col, len_map.
  replace (len (enum xs)) with (len xs) by (unfold len, enum; rewrite enum_from_length; reflexivity).
  destruct (Z.leb_spec (len xs) i); [lia|]; apply rd_ok; split; [lia|exact Er].
Qed.
Print Assumptions C09_map_number_items.

Example C09_witness :
  repr (mk 1 (col [#1; #2]) 3) 1 (col [#1; #2]) /\
  calls (fun x i (log : list Z) => (Ok (n_add x x), log ++ [i])) (enum [#1; #2]) []
        [n_add #1 #1; n_add #2 #2] [0; 1].
Proof. split; [repr_ex|]; repeat (econstructor; try reflexivity). Qed.

(** ** C10 *)
Theorem C10_map_array :
  forall (T : Type) (NT : Num T) (St : Type) (s : Serie T) (st : St) (ys : list (list T)) (st' : St) k',
  1 <= k' < 2 ^ 31 -> rows_of_size k' ys ->
  (forall (cb : T -> Z -> M St (list T)) xs,
     repr s 1 (col xs) -> xs <> [] -> calls cb (enum xs) st ys st' ->
     map_sv cb s st = (Ok (mk k' ys 3), st')) /\
  (forall (cb : list T -> Z -> M St (list T)) k rows,
     repr s k rows -> rows <> [] -> calls cb (enum rows) st ys st' ->
     map_vv cb s st = (Ok (mk k' ys 3), st')).
Proof.
  intros T NT St s st ys st' k' Hk Hr; split.
  - intros cb xs Hs Hne Hc; unfold map_sv; destruct (repr_col_len s xs Hs) as [-> Hl].
    apply map_arr_ok; auto; apply reads_scalar; exact Hs.
  - intros cb k rows Hs Hne Hc; unfold map_vv; rewrite (repr_count s k rows Hs).
    apply map_arr_ok; auto; [eapply reads_array; exact Hs|eapply repr_len_bound; exact Hs].
Qed.
Print Assumptions C10_map_array.

(** the results on [pre] have size [k'], the next one does not: the exception is thrown right there *)
Theorem C10_map_array_inconsistent :
  forall (T : Type) (NT : Num T) (St : Type) (s : Serie T) (st : St) (ys : list (list T)) (st1 : St) k' y st2,
  rows_of_size k' ys -> len y <> k' ->
  (forall (cb : T -> Z -> M St (list T)) xs pre x i post,
     repr s 1 (col xs) -> enum xs = pre ++ (x, i) :: post -> pre <> [] ->
     calls cb pre st ys st1 -> cb x i st1 = (Ok y, st2) ->
     map_sv cb s st = (Throw RuntimeError, st2)) /\
  (forall (cb : list T -> Z -> M St (list T)) k rows pre x i post,
     repr s k rows -> enum rows = pre ++ (x, i) :: post -> pre <> [] ->
     calls cb pre st ys st1 -> cb x i st1 = (Ok y, st2) ->
     map_vv cb s st = (Throw RuntimeError, st2)).
Proof.
  intros T NT St s st ys st1 k' y st2 Hr Hy; split.
  - intros cb xs pre x i post Hs E Hne Hc Hcb; unfold map_sv; destruct (repr_col_len s xs Hs) as [-> Hl].
    eapply map_arr_bad; eauto; apply reads_scalar; exact Hs.
  - intros cb k rows pre x i post Hs E Hne Hc Hcb; unfold map_vv; rewrite (repr_count s k rows Hs).
    eapply map_arr_bad; eauto; eapply reads_array; exact Hs.
Qed.
Print Assumptions C10_map_array_inconsistent.

Theorem C10_map_array_empty :
  forall (T : Type) (NT : Num T) (St : Type) (s : Serie T) (st : St),
  count s = 0 ->
  exists r, isValid r = false /\ count r = 0 /\
    (forall cb : T -> Z -> M St (list T), map_sv cb s st = (Ok r, st)) /\
    (forall cb : list T -> Z -> M St (list T), map_vv cb s st = (Ok r, st)).
Proof.
  intros T NT St s st Hc; exists (serie_n 0 0 3).
  split; [reflexivity|]; split; [reflexivity|].
  split; intros cb; [unfold map_sv|unfold map_vv]; rewrite Hc; reflexivity.
Qed.
Print Assumptions C10_map_array_empty.

(** results of size 0 are not covered by C10: the division by the item size in the constructor is undefined *)
Theorem C10_zero_size_results_refuted :
  exists (s : Serie F64) (cb : F64 -> Z -> M unit (list F64)),
  count s = 1 /\ (forall x i, cb x i tt = (Ok [], tt)) /\ map_sv cb s tt = (UB, tt).
Proof. exists (mk 1 (col [#1]) 3), (fun _ _ => ret []); repeat split. Qed.
Print Assumptions C10_zero_size_results_refuted.

Example C10_witness :
  let s := mk 1 (col [#1; #2; #3]) 3 in
  repr s 1 (col [#1; #2; #3]) /\
  run (map_sv (fun x i => ret [x; x]) s) = Ok (mk 2 [[#1; #1]; [#2; #2]; [#3; #3]] 3) /\
  run (map_sv (fun x i => ret (if i =? 2 then [x] else [x; x])) s) = Throw RuntimeError.
Proof. split; [repr_ex|]; split; reflexivity. Qed.

(** ** C11 *)
Lemma calls_pure1 {A B St} (f : A -> B) (xs : list A) i (st : St) :
  calls (fun x _ => ret (f x)) (enum_from i xs) st (map f xs) st.
Proof.
  revert i; induction xs as [|x xs IH]; intros i; simpl; [constructor|].
  econstructor; [reflexivity|apply IH].
Qed.

Section C11.
  Context {T : Type} {NT : Num T} {St : Type}.

  Lemma map_ss_pure (s : Serie T) xs (f : T -> T) (st : St) :
    repr s 1 (col xs) -> map_ss (fun x _ => ret (f x)) s st = (Ok (mk 1 (col (map f xs)) 3), st).
  Proof.
    intros Hs; destruct (C09_map_number T NT St s st (map f xs) st) as [M _].
    apply (M _ xs Hs), calls_pure1.
  Qed.
  Lemma map_vs_pure (s : Serie T) k rows (f : list T -> T) (st : St) :
    repr s k rows -> map_vs (fun x _ => ret (f x)) s st = (Ok (mk 1 (col (map f rows)) 3), st).
  Proof.
    intros Hs; destruct (C09_map_number T NT St s st (map f rows) st) as [_ M].
    apply (M _ k rows Hs), calls_pure1.
  Qed.
  Lemma map_vv_pure (s : Serie T) k rows (f : list T -> list T) (st : St) k1 :
    repr s k rows -> rows <> [] -> 1 <= k1 < 2 ^ 31 -> rows_of_size k1 (map f rows) ->
    map_vv (fun x _ => ret (f x)) s st = (Ok (mk k1 (map f rows) 3), st).
  Proof.
    intros Hs Hne Hk Hr; destruct (C10_map_array T NT St s st (map f rows) st k1 Hk Hr) as [_ M].
    apply (M _ k rows Hs Hne), calls_pure1.
  Qed.
  Lemma map_sv_pure (s : Serie T) xs (f : T -> list T) (st : St) k1 :
    repr s 1 (col xs) -> xs <> [] -> 1 <= k1 < 2 ^ 31 -> rows_of_size k1 (map f xs) ->
    map_sv (fun x _ => ret (f x)) s st = (Ok (mk k1 (map f xs) 3), st).
  Proof.
    intros Hs Hne Hk Hr; destruct (C10_map_array T NT St s st (map f xs) st k1 Hk Hr) as [M _].
    apply (M _ xs Hs Hne), calls_pure1.
  Qed.

  Lemma repr_col_mk (xs : list T) dim : len xs < 4294967296 -> repr (mk 1 (col xs) dim) 1 (col xs).
  Proof. intros; apply repr_mk; [apply rows_col|lia|rewrite len_col; lia|rewrite len_col; lia]. Qed.

  (* the second map of the compositions, whatever it does *)
  Lemma map_fold_map {A B} (f : A -> B) (g : B -> list T) k0 xs :
    forall i acc (st : St),
    foldM (fun flattened p => let! result := ret (g (fst p)) in
             if negb (len result =? k0) then throwM RuntimeError else ret (flattened ++ result))
          (enum_from i (map f xs)) acc st
    = foldM (fun flattened (p : A * Z) => let! result := ret (g (f (fst p))) in
             if negb (len result =? k0) then throwM RuntimeError else ret (flattened ++ result))
          (enum_from i xs) acc st.
  Proof.
    induction xs as [|x xs IH]; intros i acc st; [reflexivity|].
    cbn [map enum_from foldM fst snd].
    apply mbind_cong; [reflexivity|]; intros a st1; apply IH.
  Qed.

  Lemma map_arr_map {A B} (getA : Z -> outcome A) (getB : Z -> outcome B) (f : A -> B)
      (g : B -> list T) xs (st : St) :
    reads getA xs -> reads getB (map f xs) ->
    map_arr getB (fun x _ => ret (g x)) (len xs) st = map_arr getA (fun x _ => ret (g (f x))) (len xs) st.
  Proof.
    intros HA HB; destruct xs as [|x xs]; [reflexivity|].
    pose proof (map_arr_unfold getA (fun x _ => ret (g (f x))) x xs st HA) as EA.
    pose proof (map_arr_unfold getB (fun x _ => ret (g x)) (f x) (map f xs) st HB) as EB.
    rewrite <- map_cons, len_map in EB; rewrite EA, EB.
    apply mbind_cong; [reflexivity|]; intros first st1.
    apply mbind_cong; [|reflexivity].
    apply map_fold_map.
  Qed.
End C11.

(** composing two maps is mapping the composition, for every combination of number and Array valued
    callbacks; the second callback may even be inconsistent *)
Theorem C11_map_fusion :
  forall (T : Type) (NT : Num T) (St : Type) (st : St) (s : Serie T),
  (forall xs (f g : T -> T), repr s 1 (col xs) ->
     exists r1, map_ss (fun x _ => ret (f x)) s st = (Ok r1, st) /\
       map_ss (fun x _ => ret (g x)) r1 st = map_ss (fun x _ => ret (g (f x))) s st) /\
  (forall xs (f : T -> T) (g : T -> list T), repr s 1 (col xs) ->
     exists r1, map_ss (fun x _ => ret (f x)) s st = (Ok r1, st) /\
       map_sv (fun x _ => ret (g x)) r1 st = map_sv (fun x _ => ret (g (f x))) s st) /\
  (forall k rows (f : list T -> T) (g : T -> T), repr s k rows ->
     exists r1, map_vs (fun x _ => ret (f x)) s st = (Ok r1, st) /\
       map_ss (fun x _ => ret (g x)) r1 st = map_vs (fun x _ => ret (g (f x))) s st) /\
  (forall k k1 rows (f g : list T -> list T), repr s k rows -> rows <> [] ->
     1 <= k1 < 2 ^ 31 -> k1 * len rows < 2 ^ 32 ->
     (forall r, In r rows -> len (f r) = k1) ->
     exists r1, map_vv (fun x _ => ret (f x)) s st = (Ok r1, st) /\
       map_vv (fun x _ => ret (g x)) r1 st = map_vv (fun x _ => ret (g (f x))) s st) /\
  (forall k k1 rows (f : list T -> list T) (g : list T -> T), repr s k rows -> rows <> [] ->
     1 <= k1 < 2 ^ 31 -> k1 * len rows < 2 ^ 32 ->
     (forall r, In r rows -> len (f r) = k1) ->
     exists r1, map_vv (fun x _ => ret (f x)) s st = (Ok r1, st) /\
       map_vs (fun x _ => ret (g x)) r1 st = map_vs (fun x _ => ret (g (f x))) s st) /\
  (forall k1 xs (f : T -> list T) (g : list T -> list T), repr s 1 (col xs) -> xs <> [] ->
     1 <= k1 < 2 ^ 31 -> k1 * len xs < 2 ^ 32 ->
     (forall r, In r xs -> len (f r) = k1) ->
     exists r1, map_sv (fun x _ => ret (f x)) s st = (Ok r1, st) /\
       map_vv (fun x _ => ret (g x)) r1 st = map_sv (fun x _ => ret (g (f x))) s st) /\
  (forall k1 xs (f : T -> list T) (g : list T -> T), repr s 1 (col xs) -> xs <> [] ->
     1 <= k1 < 2 ^ 31 -> k1 * len xs < 2 ^ 32 ->
     (forall r, In r xs -> len (f r) = k1) ->
     exists r1, map_sv (fun x _ => ret (f x)) s st = (Ok r1, st) /\
       map_vs (fun x _ => ret (g x)) r1 st = map_ss (fun x _ => ret (g (f x))) s st) /\
  (forall k rows (f : list T -> T) (g : T -> list T), repr s k rows ->
     exists r1, map_vs (fun x _ => ret (f x)) s st = (Ok r1, st) /\
       map_sv (fun x _ => ret (g x)) r1 st = map_vv (fun x _ => ret (g (f x))) s st).
Proof.
  intros T NT St st s.
  split; [|split; [|split; [|split; [|split; [|split; [|split]]]]]].
  - intros xs f g Hs; destruct (repr_col_len s xs Hs) as [Hc Hl].
    exists (mk 1 (col (map f xs)) 3); split; [apply map_ss_pure; exact Hs|].
    rewrite (map_ss_pure s xs (fun x => g (f x)) st Hs).
    rewrite (map_ss_pure (mk 1 (col (map f xs)) 3) (map f xs)), map_map; [reflexivity|].
    apply repr_col_mk; rewrite len_map; exact Hl.
  - intros xs f g Hs; destruct (repr_col_len s xs Hs) as [Hc Hl].
    assert (H1 : repr (mk 1 (col (map f xs)) 3) 1 (col (map f xs))) by (apply repr_col_mk; rewrite len_map; exact Hl).
    exists (mk 1 (col (map f xs)) 3); split; [apply map_ss_pure; exact Hs|].
    unfold map_sv; rewrite Hc; destruct (repr_col_len _ _ H1) as [-> _]; rewrite len_map.
    apply (map_arr_map (get_double s) (get_double (mk 1 (col (map f xs)) 3))); apply reads_scalar; assumption.
  - intros k rows f g Hs; pose proof (repr_len_bound s k rows Hs) as Hl.
    exists (mk 1 (col (map f rows)) 3); split; [eapply map_vs_pure; exact Hs|].
    rewrite (map_vs_pure s k rows (fun x => g (f x)) st Hs).
    rewrite (map_ss_pure (mk 1 (col (map f rows)) 3) (map f rows)), map_map; [reflexivity|].
    apply repr_col_mk; rewrite len_map; exact Hl.
  - intros k k1 rows f g Hs Hne Hk1 Hm Hf; pose proof (repr_len_bound s k rows Hs) as Hl.
    assert (Hr1 : rows_of_size k1 (map f rows)) by (apply Forall_map, Forall_forall; exact Hf).
    assert (H1 : repr (mk k1 (map f rows) 3) k1 (map f rows)).
    { apply repr_mk; auto; try rewrite len_map; auto; lia. }
    exists (mk k1 (map f rows) 3); split; [eapply map_vv_pure; eassumption|].
    unfold map_vv; rewrite (repr_count _ _ _ H1), (repr_count _ _ _ Hs), len_map.
    eapply map_arr_map; eapply reads_array; eassumption.
  - intros k k1 rows f g Hs Hne Hk1 Hm Hf; pose proof (repr_len_bound s k rows Hs) as Hl.
    assert (Hr1 : rows_of_size k1 (map f rows)) by (apply Forall_map, Forall_forall; exact Hf).
    assert (H1 : repr (mk k1 (map f rows) 3) k1 (map f rows)).
    { apply repr_mk; auto; try rewrite len_map; auto; lia. }
    exists (mk k1 (map f rows) 3); split; [eapply map_vv_pure; eassumption|].
    rewrite (map_vs_pure _ _ _ g st H1), (map_vs_pure _ _ _ (fun x => g (f x)) st Hs), map_map; reflexivity.
  - intros k1 xs f g Hs Hne Hk1 Hm Hf; destruct (repr_col_len s xs Hs) as [Hc Hl].
    assert (Hr1 : rows_of_size k1 (map f xs)) by (apply Forall_map, Forall_forall; exact Hf).
    assert (H1 : repr (mk k1 (map f xs) 3) k1 (map f xs)).
    { apply repr_mk; auto; try rewrite len_map; auto; lia. }
    exists (mk k1 (map f xs) 3); split; [eapply map_sv_pure; eassumption|].
    unfold map_vv, map_sv; rewrite (repr_count _ _ _ H1), Hc, len_map.
    eapply map_arr_map; [apply reads_scalar|eapply reads_array]; eassumption.
  - intros k1 xs f g Hs Hne Hk1 Hm Hf; destruct (repr_col_len s xs Hs) as [Hc Hl].
    assert (Hr1 : rows_of_size k1 (map f xs)) by (apply Forall_map, Forall_forall; exact Hf).
    assert (H1 : repr (mk k1 (map f xs) 3) k1 (map f xs)).
    { apply repr_mk; auto; try rewrite len_map; auto; lia. }
    exists (mk k1 (map f xs) 3); split; [eapply map_sv_pure; eassumption|].
    rewrite (map_vs_pure _ _ _ g st H1), (map_ss_pure _ _ (fun x => g (f x)) st Hs), map_map; reflexivity.
  - intros k rows f g Hs; pose proof (repr_len_bound s k rows Hs) as Hl.
    assert (H1 : repr (mk 1 (col (map f rows)) 3) 1 (col (map f rows))) by (apply repr_col_mk; rewrite len_map; exact Hl).
    exists (mk 1 (col (map f rows)) 3); split; [eapply map_vs_pure; exact Hs|].
    unfold map_vv, map_sv; destruct (repr_col_len _ _ H1) as [-> _]; rewrite (repr_count _ _ _ Hs), len_map.
    apply (map_arr_map (get_array s) (get_double (mk 1 (col (map f rows)) 3))); [eapply reads_array; exact Hs|apply reads_scalar; exact H1].
Qed.
Print Assumptions C11_map_fusion.

(** mapping the identity gives the same items back *)
Theorem C11_map_identity :
  forall (T : Type) (NT : Num T) (St : Type) (st : St) (s : Serie T),
  (forall xs, repr s 1 (col xs) ->
     exists r, map_ss (fun x _ => ret x) s st = (Ok r, st) /\ repr r 1 (col xs)) /\
  (forall k rows, repr s k rows -> 1 <= k ->
     exists r, map_vv (fun x _ => ret x) s st = (Ok r, st) /\
       (rows <> [] -> repr r k rows) /\ (rows = [] -> count r = 0)).
Proof.
  intros T NT St st s; split.
  - intros xs Hs; destruct (repr_col_len s xs Hs) as [Hc Hl].
    exists (mk 1 (col xs) 3); split; [|apply repr_col_mk; exact Hl].
    rewrite <- (map_id xs) at 1; apply (map_ss_pure s xs (fun x => x)); exact Hs.
  - intros k rows Hs Hk.
    assert (HH := Hs); destruct HH as (_ & _ & _ & Hr & Hk2 & Hl & Hm).
    destruct rows as [|r0 rows].
    + exists (serie_n 0 0 3); unfold map_vv; rewrite (repr_count _ _ _ Hs).
      split; [reflexivity|]; split; [intros E; exfalso; apply E; reflexivity|reflexivity].
    + exists (mk k (r0 :: rows) 3); split; [|split; [|discriminate]].
      * rewrite <- (map_id (r0 :: rows)); apply (map_vv_pure s k (r0 :: rows) (fun x => x)); auto;
          [discriminate|lia|rewrite map_id; exact Hr].
      * intros _; apply repr_mk; auto.
Qed.
Print Assumptions C11_map_identity.

Example C11_witness :
  let s := mk 2 [[#1; #2]; [#3; #4]] 3 in
  let f := fun r : list F64 => r ++ [#5] in
  repr s 2 [[#1; #2]; [#3; #4]] /\
  run (map_vv (fun r _ => ret (f r)) s) = Ok (mk 3 [[#1; #2; #5]; [#3; #4; #5]] 3).
Proof. split; [repr_ex|reflexivity]. Qed.

(** ** C12 *)
Section C12.
  Context {T : Type} {NT : Num T} {St : Type}.

  Lemma iota_pos n : 1 <= n -> iota n = 0 :: iota_from 1 n.
  Proof.
    intros Hn; unfold iota, iota_from; replace (Z.to_nat n) with (S (Z.to_nat (n - 1))) by lia.
    reflexivity.
  Qed.
  Lemma map_n_s_num (cb : list (list T) -> Z -> M St T) ss n st :
    countAndCheck ss = Ok n -> 1 <= n ->
    map_n_s cb ss st = (let! r := map_num (get_all ss) cb n in ret (serie_assign serie_default r)) st.
  Proof.
    intros Hc Hn; unfold map_n_s, map_num, each; rewrite (iota_pos n Hn).
    rewrite (mbind_ok _ _ st n st) by (unfold lift; rewrite Hc; reflexivity).
    unfold mbind, lift; simpl.
    destruct (get_all ss 0) as [x0|e|]; try reflexivity.
    unfold mbind; destruct (cb x0 0 st) as [[y|e|] st1]; try reflexivity.
    destruct (mapM _ (iota_from 1 n) st1) as [[ys|e|] st2]; try reflexivity.
  Qed.
  Lemma map_n_v_arr (cb : list (list T) -> Z -> M St (list T)) ss n st :
    countAndCheck ss = Ok n -> 1 <= n ->
    map_n_v cb ss st = (let! r := map_arr (get_all ss) cb n in ret (serie_assign serie_default r)) st.
  Proof.
    intros Hc Hn; unfold map_n_v, map_arr.
    destruct (Z.eqb_spec n 0); [lia|].
    rewrite (mbind_ok _ _ st n st) by (unfold lift; rewrite Hc; reflexivity).
    rewrite mbind_assoc; apply mbind_cong; [reflexivity|]; intros x0 st1.
    rewrite mbind_assoc; apply mbind_cong; [reflexivity|]; intros y0 st2.
    rewrite mbind_assoc; apply mbind_cong; [reflexivity|]; reflexivity.
  Qed.
End C12.

Lemma tuples_len_Z {T} n (tables : list (list (list T))) : 0 <= n -> len (tuples (Z.to_nat n) tables) = n.
Proof. intros; unfold len; rewrite tuples_len; lia. Qed.

Section C12b.
  Context {T : Type} {NT : Num T} {St : Type}.
  Lemma multi_get (ss : list (Serie T)) kts n :
    reprs ss kts -> same_count n kts -> 1 <= n -> n < 4294967296 -> ss <> [] ->
    countAndCheck ss = Ok n /\ reads (get_all ss) (tuples (Z.to_nat n) (map snd kts)).
  Proof.
    intros Hr Hc Hn Hn' Hne; split; [eapply countAndCheck_ok; eauto|].
    apply reads_all; [exact Hr|rewrite Z2Nat.id by lia; exact Hc].
  Qed.
  Lemma reprs_bound (ss : list (Serie T)) kts n :
    reprs ss kts -> same_count n kts -> ss <> [] -> 0 <= n < 4294967296.
  Proof.
    intros Hr Hn Hne; destruct Hr as [|s kt ss kts Hs Hr]; [congruence|].
    inversion Hn; subst; split; [apply len_nonneg|eapply repr_len_bound; exact Hs].
  Qed.
End C12b.

(** the callback runs on the tuples of rows of equal index, in order *)
Theorem C12_map_multi :
  forall (T : Type) (NT : Num T) (St : Type) (ss : list (Serie T)) kts n (st st' : St),
  ss <> [] -> reprs ss kts -> same_count n kts -> 1 <= n ->
  (forall (cb : list (list T) -> Z -> M St T) ys,
     calls cb (enum (tuples (Z.to_nat n) (map snd kts))) st ys st' ->
     map_n_s cb ss st = (Ok (mk 1 (col ys) 3), st')) /\
  (forall (cb : list (list T) -> Z -> M St (list T)) ys k',
     calls cb (enum (tuples (Z.to_nat n) (map snd kts))) st ys st' ->
     1 <= k' < 2 ^ 31 -> rows_of_size k' ys ->
     map_n_v cb ss st = (Ok (mk k' ys 3), st')) /\
  (forall (cb : list (list T) -> Z -> M St (list T)) ys k' pre x i post st1 y,
     enum (tuples (Z.to_nat n) (map snd kts)) = pre ++ (x, i) :: post -> pre <> [] ->
     calls cb pre st ys st1 -> rows_of_size k' ys -> cb x i st1 = (Ok y, st') -> len y <> k' ->
     map_n_v cb ss st = (Throw RuntimeError, st')) /\
  (forall e (cb : list (list T) -> Z -> M St T),
     calls_throw cb (enum (tuples (Z.to_nat n) (map snd kts))) st e st' ->
     map_n_s cb ss st = (Throw e, st')).
Proof.
  intros T NT St ss kts n st st' Hne Hr Hc Hn.
  pose proof (reprs_bound ss kts n Hr Hc Hne) as Hb.
  destruct (multi_get ss kts n Hr Hc Hn (proj2 Hb) Hne) as [Hcc Hg].
  pose proof (tuples_len_Z n (map snd kts) ltac:(lia)) as Hl.
  split; [|split; [|split]].
  - intros cb ys Hcalls; rewrite (map_n_s_num cb ss n st Hcc Hn).
    rewrite (mbind_ok _ _ st (mk 1 (col ys) 3) st'); [reflexivity|].
    rewrite <- Hl at 1; apply map_num_ok; auto; lia.
  - intros cb ys k' Hcalls Hk Hrs; rewrite (map_n_v_arr cb ss n st Hcc Hn).
    rewrite (mbind_ok _ _ st (mk k' ys 3) st'); [reflexivity|].
    rewrite <- Hl at 1; apply map_arr_ok; auto; [|lia].
    intros E; rewrite E in Hl; unfold len in Hl; simpl in Hl; lia.
  - intros cb ys k' pre x i post st1 y E Hp Hcalls Hrs Hcb Hy; rewrite (map_n_v_arr cb ss n st Hcc Hn).
    unfold mbind at 1; rewrite <- Hl at 1.
    rewrite (map_arr_bad (get_all ss) cb _ k' st ys st1 pre x i post y st' Hg E Hp Hcalls Hrs Hcb Hy).
    reflexivity.
  - intros e cb Hcalls; rewrite (map_n_s_num cb ss n st Hcc Hn).
    unfold mbind at 1; rewrite <- Hl at 1.
    rewrite (map_num_throw (get_all ss) cb _ st e st' Hg Hcalls); reflexivity.
Qed.
Print Assumptions C12_map_multi.

(** differing counts are refused before any call: the callback state is untouched *)
Theorem C12_map_multi_refused :
  forall (T : Type) (NT : Num T) (St : Type) (ss : list (Serie T)) s1 s2 (st : St),
  In s1 ss -> In s2 ss -> count s1 <> count s2 ->
  (forall cb : list (list T) -> Z -> M St T, map_n_s cb ss st = (Throw InvalidArgument, st)) /\
  (forall cb : list (list T) -> Z -> M St (list T), map_n_v cb ss st = (Throw InvalidArgument, st)).
Proof.
  intros T NT St ss s1 s2 st H1 H2 Hne; pose proof (countAndCheck_throw ss s1 s2 H1 H2 Hne) as E.
  split; intros cb; [unfold map_n_s|unfold map_n_v]; unfold mbind at 1, lift at 1; rewrite E; reflexivity.
Qed.
Print Assumptions C12_map_multi_refused.

(** the full statement (also for count 0: no call) fails: index 0 is always read.  On empty Series the read is
    undefined behaviour; on default Series (item size 0) the callback is called once and an item appears. *)
Theorem C12_map_multi_empty_refuted :
  (exists (s1 s2 : Serie F64), count s1 = 0 /\ count s2 = 0 /\ itemSize s1 = 1 /\ itemSize s2 = 1 /\
     forall cb, map_n_s cb [s1; s2] tt = (UB, tt)) /\
  (exists (s1 s2 : Serie F64) cb r (log : list Z), count s1 = 0 /\ count s2 = 0 /\
     map_n_s cb [s1; s2] [] = (Ok r, log) /\ count r = 1 /\ log = [0]).
Proof.
  split.
  - exists (mk 1 [] 3), (mk 1 [] 3); repeat split.
  - exists serie_default, serie_default, (fun _ i log => (Ok #1, log ++ [i])), (mk 1 [[#1]] 3), [0]; repeat split.
Qed.
Print Assumptions C12_map_multi_empty_refuted.

Example C12_witness :
  let s1 := mk 1 (col [#1; #2]) 3 in
  let s2 := mk 2 [[#3; #4]; [#5; #6]] 3 in
  reprs [s1; s2] [(1, col [#1; #2]); (2, [[#3; #4]; [#5; #6]])] /\
  same_count 2 [(1, col [#1; #2]); (2, [[#3; #4]; [#5; #6]])] /\
  run (map_n_v (fun xs i => ret (concat xs)) [s1; s2]) = Ok (mk 3 [[#1; #3; #4]; [#2; #5; #6]] 3).
Proof. split; [constructor; [repr_ex|constructor; [repr_ex|constructor]]|]; split; [repeat constructor|reflexivity]. Qed.

(** ** C13: every element is visited exactly once, in order; an exception of the callback ends the loop *)

(** the sequence of calls made by each function is [enum xs] up to its end, or up to the exception *)
Section C13.
  Context {T : Type} {NT : Num T} {St : Type}.

  Lemma collect_throw {A} (get : Z -> outcome A) (cb : A -> Z -> M St bool) w items st e st' :
    reads get items -> calls_throw cb (enum items) st e st' ->
    collect get cb w (len items) st = (Throw e, st').
  Proof.
    intros Hg Hc; rewrite (collect_reads get cb w items st Hg); unfold mbind.
    apply calls_throw_mapM in Hc; rewrite Hc; reflexivity.
  Qed.
  Lemma collect_ok {A} (get : Z -> outcome A) (cb : A -> Z -> M St bool) w items st bs st' :
    reads get items -> calls cb (enum items) st bs st' ->
    collect get cb w (len items) st
    = (Ok (select (map snd (enum items)) (map (fun b => Bool.eqb b w) bs)), st').
  Proof.
    intros Hg Hc; rewrite (collect_reads get cb w items st Hg); unfold mbind.
    apply calls_mapM in Hc; rewrite Hc; reflexivity.
  Qed.
  Lemma collect2_throw {A} (get : Z -> outcome A) (cb : A -> Z -> M St bool) items st e st' :
    reads get items -> calls_throw cb (enum items) st e st' ->
    collect2 get cb (len items) st = (Throw e, st').
  Proof.
    intros Hg Hc; rewrite (collect2_reads get cb items st Hg); unfold mbind.
    apply calls_throw_mapM in Hc; rewrite Hc; reflexivity.
  Qed.
  Lemma collect2_ok {A} (get : Z -> outcome A) (cb : A -> Z -> M St bool) items st bs st' :
    reads get items -> calls cb (enum items) st bs st' ->
    collect2 get cb (len items) st
    = (Ok (select (map snd (enum items)) bs, select (map snd (enum items)) (map negb bs)), st').
  Proof.
    intros Hg Hc; rewrite (collect2_reads get cb items st Hg); unfold mbind.
    apply calls_mapM in Hc; rewrite Hc; reflexivity.
  Qed.
  Lemma each_ok {A B} (get : Z -> outcome A) (cb : A -> Z -> M St B) items st ys st' :
    reads get items -> calls cb (enum items) st ys st' -> each get cb (len items) st = (Ok ys, st').
  Proof. intros Hg Hc; rewrite each_reads by exact Hg; apply calls_mapM; exact Hc. Qed.
  Lemma each_throw {A B} (get : Z -> outcome A) (cb : A -> Z -> M St B) items st e st' :
    reads get items -> calls_throw cb (enum items) st e st' -> each get cb (len items) st = (Throw e, st').
  Proof. intros Hg Hc; rewrite each_reads by exact Hg; apply calls_throw_mapM; exact Hc. Qed.
End C13.

Lemma calls_throw_check {T} {NT : Num T} {A St} (cb : A -> Z -> M St bool) l st e st' :
  calls_throw cb l st e st' ->
  calls_throw (fun x i => let! b := cb x i in ret (bit b)) l st e st'.
Proof.
  intros H; induction H as [x i r st e st1 Hf|x i r st y st1 e st2 Hf Hr IH].
  - apply ct_here; unfold mbind; rewrite Hf; reflexivity.
  - eapply ct_later; [unfold mbind; rewrite Hf; reflexivity|exact IH].
Qed.
Lemma calls_check {T} {NT : Num T} {A St} (cb : A -> Z -> M St bool) l st bs st' :
  calls cb l st bs st' ->
  calls (fun x i => let! b := cb x i in ret (bit b)) l st (map bit bs) st'.
Proof.
  intros H; induction H as [st|x i r st y st1 ys st2 Hf Hr IH]; [constructor|].
  simpl; econstructor; [unfold mbind; rewrite Hf; reflexivity|exact IH].
Qed.

Theorem C13_exception_stops_numbers :
  forall (T : Type) (NT : Num T) (St : Type) (s : Serie T) xs (st : St) e st',
  repr s 1 (col xs) ->
  (forall cb : T -> Z -> M St T, calls_throw cb (enum xs) st e st' -> map_ss cb s st = (Throw e, st')) /\
  (forall cb : T -> Z -> M St bool, calls_throw cb (enum xs) st e st' ->
     filter_s cb s st = (Throw e, st') /\ reject_s cb s st = (Throw e, st') /\
     partition_s cb s st = (Throw e, st') /\ findAll_s cb s st = (Throw e, st') /\
     check_s s cb st = (Throw e, st')) /\
  (forall cb : T -> Z -> M St unit, calls_throw cb (enum xs) st e st' -> forEach_s cb s st = (Throw e, st')) /\
  (forall (cb : T -> T -> Z -> M St T) init, folds_throw cb (enum xs) init st e st' ->
     reduce_s cb s init st = (Throw e, st')).
Proof.
  intros T NT St s xs st e st' Hs.
  pose proof (reads_scalar s xs Hs) as Hg; destruct (repr_col_len s xs Hs) as [Hc Hl].
  assert (Hi : itemSize s = 1) by (rewrite (repr_itemSize _ _ _ Hs); reflexivity).
  split; [|split; [|split]].
  - intros cb H; unfold map_ss; rewrite Hc; apply map_num_throw; auto.
  - intros cb H; unfold filter_s, reject_s, partition_s, findAll_s, check_s; rewrite Hi, Hc; simpl.
    unfold mbind at 1 2 3 6; rewrite !(collect_throw _ cb _ xs st e st' Hg H).
    rewrite (collect2_throw _ cb xs st e st' Hg H); repeat split.
    apply map_num_throw; auto; apply calls_throw_check; exact H.
  - intros cb H; unfold forEach_s; rewrite Hi, Hc; simpl; unfold mbind.
    rewrite (each_throw _ cb xs st e st' Hg H); reflexivity.
  - intros cb init H; unfold reduce_s; rewrite Hc; apply folds_throw_foldM in H.
    rewrite iota_len, (foldM_index (get_double s) cb xs 0) by exact Hg; exact H.
Qed.
Print Assumptions C13_exception_stops_numbers.

Theorem C13_exception_stops_arrays :
  forall (T : Type) (NT : Num T) (St : Type) (s : Serie T) k rows (st : St) e st',
  repr s k rows ->
  (forall cb : list T -> Z -> M St T, calls_throw cb (enum rows) st e st' -> map_vs cb s st = (Throw e, st')) /\
  (forall cb : list T -> Z -> M St bool, calls_throw cb (enum rows) st e st' ->
     filter_v cb s st = (Throw e, st') /\ reject_v cb s st = (Throw e, st') /\
     partition_v cb s st = (Throw e, st') /\ findAll_v cb s st = (Throw e, st') /\
     check_v s cb st = (Throw e, st')) /\
  (forall cb : list T -> Z -> M St unit, k <> 1 -> calls_throw cb (enum rows) st e st' ->
     forEach_v cb s st = (Throw e, st')) /\
  (forall (cb : list T -> list T -> Z -> M St (list T)) init, folds_throw cb (enum rows) init st e st' ->
     reduce_v cb s init st = (Throw e, st')).
Proof.
  intros T NT St s k rows st e st' Hs.
  pose proof (reads_array s k rows Hs) as Hg; pose proof (repr_count s k rows Hs) as Hc.
  pose proof (repr_itemSize _ _ _ Hs) as Hi.
  split; [|split; [|split]].
  - intros cb H; unfold map_vs; rewrite Hc; apply map_num_throw; auto.
  - intros cb H; unfold filter_v, reject_v, partition_v, findAll_v, check_v; rewrite Hc.
    unfold mbind at 1 2 3 6; rewrite !(collect_throw _ cb _ rows st e st' Hg H).
    rewrite (collect2_throw _ cb rows st e st' Hg H); repeat split.
    apply map_num_throw; auto; apply calls_throw_check; exact H.
  - intros cb Hk H; unfold forEach_v; rewrite Hi, Hc.
    destruct (Z.eqb_spec k 1); [congruence|]; unfold mbind.
    rewrite (each_throw _ cb rows st e st' Hg H); reflexivity.
  - intros cb init H; unfold reduce_v; rewrite Hc; apply folds_throw_foldM in H.
    unfold mbind at 1.
    rewrite iota_len, (foldM_index (get_array s) cb rows 0) by exact Hg.
    change (Z.of_nat 0) with 0; change (enum_from 0 rows) with (enum rows); rewrite H; reflexivity.
Qed.
Print Assumptions C13_exception_stops_arrays.

(** Array-valued map: [pre] returned arrays of one size, the callback throws on the next item *)
Theorem C13_exception_stops_map_array :
  forall (T : Type) (NT : Num T) (St : Type) (s : Serie T) (st : St) ys k' st1 e st2,
  rows_of_size k' ys ->
  (forall (cb : T -> Z -> M St (list T)) xs pre x i post,
     repr s 1 (col xs) -> enum xs = pre ++ (x, i) :: post ->
     calls cb pre st ys st1 -> cb x i st1 = (Throw e, st2) -> map_sv cb s st = (Throw e, st2)) /\
  (forall (cb : list T -> Z -> M St (list T)) k rows pre x i post,
     repr s k rows -> enum rows = pre ++ (x, i) :: post ->
     calls cb pre st ys st1 -> cb x i st1 = (Throw e, st2) -> map_vv cb s st = (Throw e, st2)).
Proof.
  intros T NT St s st ys k' st1 e st2 Hr; split.
  - intros cb xs pre x i post Hs E Hc Hcb; unfold map_sv; destruct (repr_col_len s xs Hs) as [-> Hl].
    eapply map_arr_throw; eauto; apply reads_scalar; exact Hs.
  - intros cb k rows pre x i post Hs E Hc Hcb; unfold map_vv; rewrite (repr_count s k rows Hs).
    eapply map_arr_throw; eauto; eapply reads_array; exact Hs.
Qed.
Print Assumptions C13_exception_stops_map_array.

(** A callback that records its arguments sees every item with its index, once each, in order *)
Definition logging {A B} (g : A -> Z -> B) : A -> Z -> M (list (A * Z)) B :=
  fun x i log => (Ok (g x i), log ++ [(x, i)]).

Lemma calls_logging {A B} (g : A -> Z -> B) l log :
  calls (logging g) l log (map (fun p => g (fst p) (snd p)) l) (log ++ l).
Proof.
  revert log; induction l as [|[x i] l IH]; intros log; simpl.
  - rewrite app_nil_r; constructor.
  - econstructor; [reflexivity|]; replace (log ++ (x, i) :: l) with ((log ++ [(x, i)]) ++ l)
      by (rewrite <- app_assoc; reflexivity); apply IH.
Qed.

Theorem C13_each_item_once_numbers :
  forall (T : Type) (NT : Num T) (s : Serie T) xs,
  repr s 1 (col xs) ->
  (forall g, snd (map_ss (logging g) s []) = enum xs) /\
  (forall p, snd (filter_s (logging p) s []) = enum xs /\ snd (reject_s (logging p) s []) = enum xs /\
             snd (partition_s (logging p) s []) = enum xs /\ snd (findAll_s (logging p) s []) = enum xs /\
             snd (check_s s (logging p) []) = enum xs) /\
  (forall g, snd (forEach_s (logging g) s []) = enum xs) /\
  (forall g init, snd (reduce_s (fun a => logging (g a)) s init []) = enum xs).
Proof.
  intros T NT s xs Hs.
  pose proof (reads_scalar s xs Hs) as Hg; destruct (repr_col_len s xs Hs) as [Hc Hl].
  assert (Hi : itemSize s = 1) by (rewrite (repr_itemSize _ _ _ Hs); reflexivity).
  split; [|split; [|split]].
  - intros g; destruct (C09_map_number T NT _ s [] (map (fun p => g (fst p) (snd p)) (enum xs)) (enum xs)) as [M _].
    rewrite (M _ xs Hs (calls_logging g (enum xs) [])); reflexivity.
  - intros p; pose proof (calls_logging p (enum xs) []) as Hcl; simpl in Hcl.
    unfold filter_s, reject_s, partition_s, findAll_s, check_s; rewrite Hi, Hc; simpl.
    unfold mbind at 1 2 3 6; rewrite !(collect_ok _ _ _ xs [] _ _ Hg Hcl).
    rewrite (collect2_ok _ _ xs [] _ _ Hg Hcl).
    rewrite (map_num_ok _ _ xs [] _ (enum xs) Hg Hl (calls_check (logging p) _ _ _ _ Hcl)).
    unfold mbind, lift, ret; cbn [fst snd].
    repeat split.
    repeat (match goal with |- context [take_s s ?l] => destruct (take_s s l) end; try reflexivity; simpl).
  - intros g; unfold forEach_s; rewrite Hi, Hc; simpl; unfold mbind.
    rewrite (each_ok _ _ xs [] _ _ Hg (calls_logging g (enum xs) [])); reflexivity.
  - intros g init; unfold reduce_s; rewrite Hc, iota_len, (foldM_index (get_double s) _ xs 0) by exact Hg.
    change (enum xs) with ([] ++ enum xs); unfold enum; change (Z.of_nat 0) with 0; generalize 0.
    generalize (@nil (T * Z)); revert init; clear; induction xs as [|x xs IH]; intros init log i; simpl.
    + rewrite app_nil_r; reflexivity.
    + unfold mbind, logging; simpl; rewrite IH, <- app_assoc; reflexivity.
Qed.
Print Assumptions C13_each_item_once_numbers.

Theorem C13_each_item_once_arrays :
  forall (T : Type) (NT : Num T) (s : Serie T) k rows,
  repr s k rows ->
  (forall g, snd (map_vs (logging g) s []) = enum rows) /\
  (forall g k', 1 <= k' < 2 ^ 31 -> (forall r i, len (g r i) = k') -> snd (map_vv (logging g) s []) = enum rows) /\
  (forall p, snd (filter_v (logging p) s []) = enum rows /\ snd (reject_v (logging p) s []) = enum rows /\
             snd (partition_v (logging p) s []) = enum rows /\ snd (findAll_v (logging p) s []) = enum rows /\
             snd (check_v s (logging p) []) = enum rows) /\
  (k <> 1 -> forall g, snd (forEach_v (logging g) s []) = enum rows) /\
  (forall g init, snd (reduce_v (fun a => logging (g a)) s init []) = enum rows).
Proof.
  intros T NT s k rows Hs.
  pose proof (reads_array s k rows Hs) as Hg; pose proof (repr_count s k rows Hs) as Hc.
  pose proof (repr_itemSize _ _ _ Hs) as Hi; pose proof (repr_len_bound s k rows Hs) as Hl.
  split; [|split; [|split; [|split]]].
  - intros g; destruct (C09_map_number T NT _ s [] (map (fun p => g (fst p) (snd p)) (enum rows)) (enum rows)) as [_ M].
    rewrite (M _ k rows Hs (calls_logging g (enum rows) [])); reflexivity.
  - intros g k' Hk' Hsz; destruct rows as [|r0 rows].
    + unfold map_vv; rewrite Hc; reflexivity.
    + destruct (C10_map_array T NT _ s [] (map (fun p => g (fst p) (snd p)) (enum (r0 :: rows)))
                  (enum (r0 :: rows)) k' Hk') as [_ M].
      { apply Forall_map, Forall_forall; intros p _; apply Hsz. }
      rewrite (M _ k (r0 :: rows) Hs ltac:(discriminate) (calls_logging g (enum (r0 :: rows)) [])); reflexivity.
  - intros p; pose proof (calls_logging p (enum rows) []) as Hcl; simpl in Hcl.
    unfold filter_v, reject_v, partition_v, findAll_v, check_v; rewrite Hc.
    unfold mbind at 1 2 3 6; rewrite !(collect_ok _ _ _ rows [] _ _ Hg Hcl).
    rewrite (collect2_ok _ _ rows [] _ _ Hg Hcl).
    rewrite (map_num_ok _ _ rows [] _ (enum rows) Hg Hl (calls_check (logging p) _ _ _ _ Hcl)).
    unfold mbind, lift, ret; cbn [fst snd].
    repeat split.
    repeat (match goal with |- context [take_v s ?l] => destruct (take_v s l) end; try reflexivity; simpl).
  - intros Hk g; unfold forEach_v; rewrite Hi, Hc; destruct (Z.eqb_spec k 1); [congruence|]; unfold mbind.
    rewrite (each_ok _ _ rows [] _ _ Hg (calls_logging g (enum rows) [])); reflexivity.
  - intros g init; unfold reduce_v; rewrite Hc; unfold mbind at 1.
    rewrite iota_len, (foldM_index (get_array s) _ rows 0) by exact Hg.
    enough (E : forall log i a, exists a', foldM (fun acc p => logging (g acc) (fst p) (snd p)) (enum_from i rows) a log
                 = (Ok a', log ++ enum_from i rows)).
    { destruct (E [] 0 init) as [a' E']; change (Z.of_nat 0) with 0; rewrite E'; reflexivity. }
    clear; induction rows as [|x xs IH]; intros log i a; simpl.
    + exists a; rewrite app_nil_r; reflexivity.
    + destruct (IH (log ++ [(x, i)]) (i + 1) (g a x i)) as [a' E]; exists a'.
      unfold mbind, logging in *; simpl; rewrite E, <- app_assoc; reflexivity.
Qed.
Print Assumptions C13_each_item_once_arrays.

(** the generic callback [(const auto&, uint32_t)] of forEach: the numbers or the Arrays, once each and in order *)
Theorem C13_each_item_once_generic :
  forall (T : Type) (NT : Num T) (s : Serie T),
  (forall xs, repr s 1 (col xs) -> forall gs gv, snd (forEach_auto (logging gs) gv s []) = enum xs) /\
  (forall k rows, repr s k rows -> k <> 1 -> forall gs gv, snd (forEach_auto gs (logging gv) s []) = enum rows) /\
  (forall St (cbs : T -> Z -> M St unit) cbv st xs, repr s 1 (col xs) -> forEach_auto cbs cbv s st = forEach_s cbs s st) /\
  (forall St (cbs : T -> Z -> M St unit) cbv st, itemSize s <> 1 -> forEach_auto cbs cbv s st = forEach_v cbv s st).
Proof.
  intros T NT s.
  assert (A : forall St (cbs : T -> Z -> M St unit) cbv st xs, repr s 1 (col xs) -> forEach_auto cbs cbv s st = forEach_s cbs s st).
  { intros St cbs cbv st xs Hs; unfold forEach_auto, forEach_s; rewrite (repr_itemSize _ _ _ Hs); reflexivity. }
  assert (B : forall St (cbs : T -> Z -> M St unit) cbv st, itemSize s <> 1 -> forEach_auto cbs cbv s st = forEach_v cbv s st).
  { intros St cbs cbv st Hs; unfold forEach_auto, forEach_v; destruct (Z.eqb_spec (itemSize s) 1); [contradiction|reflexivity]. }
  split; [|split; [|split; assumption]].
  - intros xs Hs gs gv; rewrite (A _ _ _ _ xs Hs); destruct (C13_each_item_once_numbers T NT s xs Hs) as (_ & _ & F & _); apply F.
  - intros k rows Hs Hk gs gv; rewrite B by (rewrite (repr_itemSize _ _ _ Hs); exact Hk).
    destruct (C13_each_item_once_arrays T NT s k rows Hs) as (_ & _ & _ & F & _); apply (F Hk).
Qed.
Print Assumptions C13_each_item_once_generic.

(** a predicate that throws at index 1 of 3: the calls are 0 and 1 *)
Example C13_witness :
  let s := mk 1 (col [#1; #2; #3]) 3 in
  let p := fun (x : F64) (i : Z) (log : list Z) =>
             (if i =? 1 then Throw RuntimeError else Ok true, log ++ [i]) in
  repr s 1 (col [#1; #2; #3]) /\
  calls_throw p (enum [#1; #2; #3]) [] RuntimeError [0; 1] /\
  filter_s p s [] = (Throw RuntimeError, [0; 1]).
Proof.
  split; [repr_ex|]; split; [|reflexivity].
  eapply ct_later; [reflexivity|]; apply ct_here; reflexivity.
Qed.
