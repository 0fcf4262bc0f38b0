(** * C148: the rearranging functions commute with map and filter.
    Every law is an equation between two programs, each of which ends normally. *)
From Verif Require Import Base Num Serie Spec BaseFacts SerieFacts Functional FunctionalFacts Utils UtilsFacts
  F64 F64Facts OrderFacts RNum Props_Functional Props_Filter Props_Fold Props_Merge Props_Partition Props_Zip Props_Sort Props_Quantile.
From Coq Require Import Permutation Sorted Reals Lra.
Open Scope Z_scope.
Opaque f64_of_Z.
#[local] Existing Instance F64N.

(** a program that ends with a value *)
Definition ends {A} (p : outcome A) : Prop := exists v, p = Ok v.
(** both programs end with the same value *)
Definition agree {A} (p q : outcome A) : Prop := p = q /\ ends p.
Notation "p ≈ q" := (agree p q) (at level 70).

Lemma agree_ok {A} (p q : outcome A) v : p = Ok v -> q = Ok v -> p ≈ q.
Proof. intros -> ->; split; [reflexivity|exists v; reflexivity]. Qed.

(** the functions of the library with callbacks that neither keep a state nor throw *)
Definition mapS {T} {NT : Num T} (f : T -> T) (s : Serie T) := run (map_ss (fun x _ => ret (f x)) s).
Definition mapV {T} {NT : Num T} (f : list T -> list T) (s : Serie T) := run (map_vv (fun x _ => ret (f x)) s).
Definition filterS {T} {NT : Num T} (p : T -> bool) (s : Serie T) := run (filter_s (fun x _ => ret (p x)) s).
Definition filterV {T} {NT : Num T} (p : list T -> bool) (s : Serie T) := run (filter_v (fun x _ => ret (p x)) s).

Section Laws.
  Context {T : Type} {NT : Num T}.

  Lemma mapS_ok (s : Serie T) xs f : repr s 1 (col xs) -> mapS f s = Ok (mk 1 (col (map f xs)) 3).
  Proof. intros H; unfold mapS, run; rewrite (map_ss_pure s xs f tt H); reflexivity. Qed.
  Lemma mapV_ok (s : Serie T) k rows f k1 : repr s k rows -> rows <> [] -> 1 <= k1 < 2 ^ 31 ->
    rows_of_size k1 (map f rows) -> mapV f s = Ok (mk k1 (map f rows) 3).
  Proof. intros H Hn Hk Hr; unfold mapV, run; rewrite (map_vv_pure s k rows f tt k1 H Hn Hk Hr); reflexivity. Qed.
  Lemma filterS_ok (s : Serie T) xs p : repr s 1 (col xs) -> filterS p s = Ok (mk 1 (col (filter p xs)) 3).
  Proof. intros H; unfold filterS, run; rewrite (filter_s_pure s xs p tt H); reflexivity. Qed.
  Lemma filterV_ok (s : Serie T) k rows p : repr s k rows -> filterV p s = Ok (mk k (filter p rows) 3).
  Proof. intros H; unfold filterV, run; rewrite (filter_v_pure s k rows p tt H); reflexivity. Qed.

  Lemma interleave_map {A B} (f : A -> B) (a b : list A) :
    interleave (map f a) (map f b) = map f (interleave a b).
  Proof. revert b; induction a as [|x a IH]; intros [|y b]; simpl; try reflexivity; rewrite IH; reflexivity. Qed.
  Lemma interleave_len {A} (a b : list A) : len (interleave a b) = len (a ++ b).
  Proof. unfold len; f_equal; symmetry; apply Permutation_length, interleave_perm. Qed.
  Lemma len_filter {A} (p : A -> bool) l : len (filter p l) <= len l.
  Proof. unfold len; pose proof (filter_length_le' p l); lia. Qed.
  Lemma filter_map_comm {A B} (f : A -> B) p l : filter p (map f l) = map f (filter (fun x => p (f x)) l).
  Proof. induction l as [|x l IH]; simpl; [reflexivity|]; destruct (p (f x)); simpl; rewrite IH; reflexivity. Qed.
  Lemma col_app (a b : list T) : col (a ++ b) = col a ++ col b.
  Proof. apply map_app. Qed.
  Lemma fold_left_filter {A B} (g : A -> B -> A) p l : forall a,
    fold_left g (filter p l) a = fold_left (fun a x => if p x : bool then g a x else a) l a.
  Proof. induction l as [|x l IH]; intros a; simpl; [reflexivity|]; destruct (p x); simpl; apply IH. Qed.
  Lemma fold_left_mapped {A B C} (g : A -> B -> A) (f : C -> B) l : forall a,
    fold_left g (map f l) a = fold_left (fun a x => g a (f x)) l a.
  Proof. induction l as [|x l IH]; intros a; simpl; [reflexivity|apply IH]. Qed.

  Lemma mapO_parts {A} (g : Serie T -> outcome (Serie T)) (h : A -> Serie T) ss (l : list A) :
    Forall2 (fun s a => g s = Ok (h a)) ss l -> mapO g ss = Ok (map h l).
  Proof. induction 1 as [|s a ss l E _ IH]; cbn [mapO map]; [reflexivity|]; rewrite E; cbn [obind]; rewrite IH; reflexivity. Qed.
  Lemma reprs_each k (ss : list (Serie T)) tables : reprs ss (tables_of k tables) -> Forall2 (fun s t => repr s k t) ss tables.
  Proof.
    revert tables; induction ss as [|s ss IH]; intros [|t ts] H; inversion H; subst; constructor; auto.
  Qed.
  Lemma reprs_mk k (tables : list (list (list T))) : Forall (fun t => repr (mk k t 3) k t) tables ->
    reprs (map (fun t => mk k t 3) tables) (tables_of k tables).
  Proof. induction 1; cbn [map tables_of]; constructor; auto. Qed.
  Lemma len_concat_part {A} (l : list A) ls : In l ls -> len l <= len (concat ls).
  Proof.
    induction ls as [|x ls IH]; intros []; cbn [concat]; rewrite len_app.
    - subst; pose proof (len_nonneg (concat ls)); lia.
    - specialize (IH H); pose proof (len_nonneg x); lia.
  Qed.
  Lemma len_concat_map {A B} (f : list A -> list B) ls : (forall l, len (f l) = len l) ->
    len (concat (map f ls)) = len (concat ls).
  Proof. intros E; induction ls as [|x ls IH]; cbn [map concat]; [reflexivity|rewrite !len_app, E, IH; reflexivity]. Qed.
  Lemma len_concat_le {A B} (f : list A -> list B) ls : (forall l, len (f l) <= len l) ->
    len (concat (map f ls)) <= len (concat ls).
  Proof. intros E; induction ls as [|x ls IH]; cbn [map concat]; [apply Z.le_refl|rewrite !len_app; pose proof (E x); lia]. Qed.
  Lemma concat_filter {A} (p : A -> bool) ls : concat (map (filter p) ls) = filter p (concat ls).
  Proof. induction ls as [|x ls IH]; cbn [map concat]; [reflexivity|rewrite filter_app, IH; reflexivity]. Qed.
  Lemma concat_cols (xss : list (list T)) : concat (map (@col T) xss) = col (concat xss).
  Proof. induction xss as [|x xss IH]; cbn [map concat]; [reflexivity|rewrite IH, col_app; reflexivity]. Qed.
End Laws.

(** ** Joining two Series *)
(** whether the second Serie is appended or interleaved, mapping the result is joining the mapped Series *)
Theorem C148_merge_map :
  forall (T : Type) (NT : Num T) (a b : Serie T) xs ys (f : T -> T) (concatenate : bool),
  repr a 1 (col xs) -> repr b 1 (col ys) -> len (xs ++ ys) < 2 ^ 32 ->
  (let* ab := merge2 a b concatenate in mapS f ab) ≈ (let* fa := mapS f a in let* fb := mapS f b in merge2 fa fb concatenate).
Proof.
  intros T NT a b xs ys f c Ha Hb Hl; rewrite (mapS_ok a xs f Ha), (mapS_ok b ys f Hb); cbn [obind].
  assert (Hl' : len (col xs ++ col ys) < 4294967296) by (rewrite <- col_app, len_col; exact Hl).
  assert (Hf : len (col (map f xs) ++ col (map f ys)) < 4294967296) by (rewrite <- col_app, len_col, <- map_app, len_map; exact Hl).
  assert (Fa : repr (mk 1 (col (map f xs)) 3) 1 (col (map f xs))).
  { apply repr_col_mk; rewrite len_map; rewrite len_app in Hl; pose proof (len_nonneg ys); lia. }
  assert (Fb : repr (mk 1 (col (map f ys)) 3) 1 (col (map f ys))).
  { apply repr_col_mk; rewrite len_map; rewrite len_app in Hl; pose proof (len_nonneg xs); lia. }
  destruct c.
  - rewrite (merge2_concat a b 1 _ _ Ha Hb) by lia; rewrite (merge2_concat _ _ 1 _ _ Fa Fb) by lia; cbn [obind].
    rewrite <- !col_app, <- map_app; eapply agree_ok; [|reflexivity]; apply mapS_ok, repr_col_mk; exact Hl.
  - rewrite (merge2_interleave a b 1 _ _ Ha Hb) by lia; rewrite (merge2_interleave _ _ 1 _ _ Fa Fb) by lia; cbn [obind].
    unfold col; rewrite !interleave_map; fold (@col T); eapply agree_ok; [|reflexivity].
    apply mapS_ok, repr_col_mk; rewrite interleave_len; exact Hl.
Qed.
Print Assumptions C148_merge_map.

Theorem C148_merge_map_arrays :
  forall (T : Type) (NT : Num T) (a b : Serie T) k k1 ra rb (f : list T -> list T) (concatenate : bool),
  repr a k ra -> repr b k rb -> ra <> [] -> rb <> [] -> 1 <= k1 < 2 ^ 31 ->
  rows_of_size k1 (map f ra) -> rows_of_size k1 (map f rb) ->
  len (ra ++ rb) < 2 ^ 32 -> k * len (ra ++ rb) < 2 ^ 32 -> k1 * len (ra ++ rb) < 2 ^ 32 ->
  (let* ab := merge2 a b concatenate in mapV f ab) ≈ (let* fa := mapV f a in let* fb := mapV f b in merge2 fa fb concatenate).
Proof.
  intros T NT a b k k1 ra rb f c Ha Hb Na Nb Hk1 Ra Rb Hl Hm Hm1.
  rewrite (mapV_ok a k ra f k1), (mapV_ok b k rb f k1) by assumption; cbn [obind].
  assert (Hk : 0 <= k < 2147483648) by apply Ha.
  assert (La : len ra <= len (ra ++ rb) /\ len rb <= len (ra ++ rb)).
  { rewrite len_app; pose proof (len_nonneg ra); pose proof (len_nonneg rb); lia. }
  assert (Hf : len (map f ra ++ map f rb) = len (ra ++ rb)) by (rewrite <- map_app; apply len_map).
  assert (Fa : repr (mk k1 (map f ra) 3) k1 (map f ra)) by (apply repr_mk; rewrite ?len_map; auto; try lia; nia).
  assert (Fb : repr (mk k1 (map f rb) 3) k1 (map f rb)) by (apply repr_mk; rewrite ?len_map; auto; try lia; nia).
  assert (Rab : rows_of_size k ra /\ rows_of_size k rb) by (split; [apply Ha|apply Hb]).
  destruct c.
  - rewrite (merge2_concat a b k _ _ Ha Hb) by lia; rewrite (merge2_concat _ _ k1 _ _ Fa Fb) by lia; cbn [obind].
    rewrite <- map_app; eapply agree_ok; [|reflexivity]; apply (mapV_ok _ k); auto.
    + apply repr_mk; auto; try lia; apply Forall_app; exact Rab.
    + destruct ra; [congruence|discriminate].
    + rewrite map_app; apply Forall_app; split; assumption.
  - rewrite (merge2_interleave a b k _ _ Ha Hb) by lia; rewrite (merge2_interleave _ _ k1 _ _ Fa Fb) by lia; cbn [obind].
    rewrite !interleave_map; eapply agree_ok; [|reflexivity].
    assert (Ri : forall k' (r1 r2 : list (list T)), rows_of_size k' r1 -> rows_of_size k' r2 -> rows_of_size k' (interleave r1 r2)).
    { intros k' r1 r2 H1 H2; eapply Permutation_Forall; [apply interleave_perm|apply Forall_app; split; assumption]. }
    apply (mapV_ok _ k); auto.
    + apply repr_mk; rewrite ?interleave_len; try lia; apply Ri; apply Rab.
    + destruct ra, rb; try congruence; discriminate.
    + rewrite <- interleave_map; apply Ri; assumption.
Qed.
Print Assumptions C148_merge_map_arrays.

(** filtering two Series put one after the other is putting the filtered Series one after the other *)
Theorem C148_merge_filter :
  forall (T : Type) (NT : Num T) (a b : Serie T),
  (forall xs ys (p : T -> bool), repr a 1 (col xs) -> repr b 1 (col ys) -> len (xs ++ ys) < 2 ^ 32 ->
     (let* ab := merge2 a b true in filterS p ab) ≈ (let* pa := filterS p a in let* pb := filterS p b in merge2 pa pb true)) /\
  (forall k ra rb (p : list T -> bool), repr a k ra -> repr b k rb ->
     len (ra ++ rb) < 2 ^ 32 -> k * len (ra ++ rb) < 2 ^ 32 ->
     (let* ab := merge2 a b true in filterV p ab) ≈ (let* pa := filterV p a in let* pb := filterV p b in merge2 pa pb true)).
Proof.
  intros T NT a b; split.
  - intros xs ys p Ha Hb Hl; rewrite (filterS_ok a xs p Ha), (filterS_ok b ys p Hb); cbn [obind].
    pose proof (len_filter p xs); pose proof (len_filter p ys); pose proof (len_nonneg xs); pose proof (len_nonneg ys).
    pose proof Hl as Hl0; rewrite len_app in Hl0.
    rewrite (merge2_concat a b 1 _ _ Ha Hb) by (rewrite <- col_app, len_col; lia).
    rewrite (merge2_concat (mk 1 (col (filter p xs)) 3) (mk 1 (col (filter p ys)) 3) 1 (col (filter p xs)) (col (filter p ys)));
      try (apply repr_col_mk; lia); try (rewrite <- col_app, len_col, len_app; lia).
    cbn [obind]; rewrite <- !col_app, <- filter_app; eapply agree_ok; [|reflexivity].
    apply filterS_ok, repr_col_mk; exact Hl.
  - intros k ra rb p Ha Hb Hl Hm; rewrite (filterV_ok a k ra p Ha), (filterV_ok b k rb p Hb); cbn [obind].
    assert (Hk : 0 <= k < 2147483648) by apply Ha.
    assert (Hf : len (filter p ra ++ filter p rb) <= len (ra ++ rb)) by (rewrite <- filter_app; apply len_filter).
    rewrite (merge2_concat a b k _ _ Ha Hb) by lia.
    rewrite (merge2_concat _ _ k _ _ (repr_filter a k ra p Ha) (repr_filter b k rb p Hb)) by nia.
    cbn [obind]; rewrite <- filter_app; eapply agree_ok; [|reflexivity].
    apply filterV_ok; apply repr_mk; try lia; apply Forall_app; split; [apply Ha|apply Hb].
Qed.
Print Assumptions C148_merge_filter.

(** interleaving does not commute with filtering: 1, 2 with 3, 4, keeping the numbers other than 1 *)
Theorem C148_merge_filter_interleaved_refuted :
  exists (a b : Serie F64) xs ys (p : F64 -> bool), repr a 1 (col xs) /\ repr b 1 (col ys) /\ len (xs ++ ys) < 2 ^ 32 /\
  (let* ab := merge2 a b false in filterS p ab) = Ok (mk 1 (col [#3; #2; #4]) 3) /\
  (let* pa := filterS p a in let* pb := filterS p b in merge2 pa pb false) = Ok (mk 1 (col [#2; #3; #4]) 3).
Proof.
  exists (mk 1 (col [#1; #2]) 3), (mk 1 (col [#3; #4]) 3), [#1; #2], [#3; #4], (fun x => n_ltb #1 x).
  split; [repr_ex|]; split; [repr_ex|]; split; [reflexivity|].
  assert (P1 : n_ltb #1 #1 = false) by (vm_compute; reflexivity).
  assert (P2 : n_ltb #1 #2 = true) by (vm_compute; reflexivity).
  assert (P3 : n_ltb #1 #3 = true) by (vm_compute; reflexivity).
  assert (P4 : n_ltb #1 #4 = true) by (vm_compute; reflexivity).
  assert (Fi : forall l, In l [[#1; #2]; [#3; #4]; [#1; #3; #2; #4]] -> repr (mk 1 (col l) 3) 1 (col l)).
  { intros l [<-|[<-|[<-|[]]]]; repr_ex. }
  rewrite (filterS_ok (mk 1 (col [#1; #2]) 3) [#1; #2]) by (apply Fi; simpl; auto).
  rewrite (filterS_ok (mk 1 (col [#3; #4]) 3) [#3; #4]) by (apply Fi; simpl; auto).
  rewrite (merge2_interleave _ _ 1 (col [#1; #2]) (col [#3; #4])) by first [apply Fi; simpl; auto|reflexivity].
  cbn [obind]; change (interleave (col [#1; #2]) (col [#3; #4])) with (col [#1; #3; #2; #4]).
  rewrite (filterS_ok _ [#1; #3; #2; #4]) by (apply Fi; simpl; auto).
  cbn [filter]; rewrite P1, P2, P3, P4; split; [reflexivity|].
  rewrite (merge2_interleave _ _ 1 (col [#2]) (col [#3; #4])); [reflexivity|repr_ex|repr_ex|reflexivity|reflexivity].
Qed.
Print Assumptions C148_merge_filter_interleaved_refuted.

(** ** Searching *)
Section Find.
  Context {T : Type} {NT : Num T}.
  Definition findS (p : T -> bool) (s : Serie T) := run (find_s (fun x _ => ret (p x)) s).
  Fixpoint first (p : T -> bool) (xs : list T) (i : Z) : find_result T :=
    match xs with
    | [] => mkFind n0 0 false
    | x :: r => if p x then mkFind x i true else first p r (i + 1)
    end.
  Lemma first_loop (get : Z -> outcome T) p : forall items a,
    (forall j x, nth_error items j = Some x -> get (Z.of_nat (a + j)) = Ok x) ->
    find_loop get (fun x _ => ret (p x)) n0 (seqZ a (length items)) tt = (Ok (first p items (Z.of_nat a)), tt).
  Proof.
    induction items as [|y items IH]; intros a Hg; [reflexivity|]; cbn [length first]; rewrite seqZ_S.
    assert (E0 : get (Z.of_nat a) = Ok y) by (rewrite <- (Nat.add_0_r a); apply Hg; reflexivity).
    cbn [find_loop]; unfold mbind at 1, lift; rewrite E0; unfold mbind at 1, ret at 1.
    destruct (p y); [reflexivity|].
    replace (Z.of_nat a + 1) with (Z.of_nat (S a)) by lia; apply IH.
    intros j z Hj; replace (S a + j)%nat with (a + S j)%nat by lia; apply Hg; exact Hj.
  Qed.
  Lemma findS_ok (s : Serie T) xs p : repr s 1 (col xs) -> findS p s = Ok (first p xs 0).
  Proof.
    intros Hs; unfold findS, run, find_s; destruct (repr_col_len s xs Hs) as [Hc _].
    rewrite (repr_itemSize _ _ _ Hs), Hc; cbn [negb Z.eqb Pos.eqb]; rewrite iota_len.
    rewrite (first_loop (get_double s) p xs 0 (reads_scalar s xs Hs)); reflexivity.
  Qed.
  Lemma first_app p ys : forall xs i, first p (xs ++ ys) i
    = if fr_found (first p xs i) then first p xs i else first p ys (i + len xs).
  Proof.
    induction xs as [|x xs IH]; intros i; cbn [app first]; [rewrite Z.add_0_r; reflexivity|].
    destruct (p x); [reflexivity|]; rewrite IH, len_cons.
    replace (i + 1 + len xs) with (i + (len xs + 1)) by lia; reflexivity.
  Qed.
  Lemma first_shift p : forall xs i d, first p xs (i + d)
    = if fr_found (first p xs i) then mkFind (fr_value (first p xs i)) (fr_index (first p xs i) + d) true else mkFind n0 0 false.
  Proof.
    induction xs as [|x xs IH]; intros i d; cbn [first]; [reflexivity|]; destruct (p x); [reflexivity|].
    replace (i + d + 1) with (i + 1 + d) by lia; apply IH.
  Qed.
  Lemma first_none p : forall xs i, fr_found (first p xs i) = false -> first p xs i = mkFind n0 0 false.
  Proof. induction xs as [|x xs IH]; intros i; cbn [first]; [reflexivity|]; destruct (p x); [discriminate|apply IH]. Qed.
End Find.

(** searching two Series put one after the other: the first Serie, and only then the second, whose indices move up *)
Theorem C148_find :
  forall (T : Type) (NT : Num T) (a b : Serie T) xs ys (p : T -> bool),
  repr a 1 (col xs) -> repr b 1 (col ys) -> len (xs ++ ys) < 2 ^ 32 ->
  (let* ab := merge2 a b true in findS p ab)
  ≈ (let* ra := findS p a in
     if fr_found ra then Ok ra
     else let* rb := findS p b in
          Ok (if fr_found rb then mkFind (fr_value rb) (fr_index rb + count a) true else rb)).
Proof.
  intros T NT a b xs ys p Ha Hb Hl; destruct (repr_col_len a xs Ha) as [Hc _].
  rewrite (merge2_concat a b 1 _ _ Ha Hb) by (rewrite <- col_app, len_col; lia); cbn [obind].
  rewrite (findS_ok a xs p Ha), (findS_ok b ys p Hb), Hc; cbn [obind]; rewrite <- col_app.
  rewrite (findS_ok _ (xs ++ ys)), first_app by (apply repr_col_mk; exact Hl).
  destruct (fr_found (first p xs 0)); [eapply agree_ok; reflexivity|].
  rewrite first_shift; destruct (fr_found (first p ys 0)) eqn:E; [eapply agree_ok; reflexivity|].
  rewrite (first_none p ys 0 E); eapply agree_ok; reflexivity.
Qed.
Print Assumptions C148_find.

(** ** Joining any number of Series *)
Theorem C148_concat_map :
  forall (T : Type) (NT : Num T) (ss : list (Serie T)) xss (f : T -> T),
  ss <> [] -> reprs ss (tables_of 1 (map (@col T) xss)) -> len (concat xss) < 2 ^ 32 ->
  (let* all := concat_series ss in mapS f all) ≈ (let* mapped := mapO (mapS f) ss in concat_series mapped).
Proof.
  intros T NT ss xss f Hne Hr Hl.
  assert (Lc : len (concat (map (@col T) xss)) = len (concat xss)) by (rewrite concat_cols; apply len_col).
  rewrite (C29_concat T NT ss 1 (map (@col T) xss)) by (auto; lia); cbn [obind]; rewrite concat_cols.
  rewrite (mapS_ok _ (concat xss)) by (apply repr_col_mk; exact Hl).
  assert (E : mapO (mapS f) ss = Ok (map (fun t => mk 1 t 3) (map (fun xs => col (map f xs)) xss))).
  { rewrite map_map; apply mapO_parts; apply reprs_each in Hr; clear -Hr.
    remember (map (@col T) xss) as ts eqn:Et; revert xss Et; induction Hr as [|s t ss ts Hs _ IH]; intros [|xs xss] Et; try discriminate; constructor.
    - injection Et as -> _; apply mapS_ok; exact Hs.
    - injection Et as _ Et; apply IH; exact Et. }
  rewrite E; cbn [obind].
  assert (Ec : concat (map (fun xs => col (map f xs)) xss) = col (map f (concat xss))).
  { rewrite <- (map_map (map f) (@col T)), concat_cols, concat_map; reflexivity. }
  eapply agree_ok; [reflexivity|].
  rewrite (C29_concat T NT _ 1 (map (fun xs => col (map f xs)) xss)); rewrite ?Ec, ?len_col, ?len_map; auto; try lia.
  - destruct xss as [|xs xss]; [destruct ss; [congruence|inversion Hr]|discriminate].
  - apply reprs_mk, Forall_map, Forall_forall; intros xs Hin; apply repr_col_mk; rewrite len_map.
    pose proof (len_concat_part xs xss Hin); lia.
Qed.
Print Assumptions C148_concat_map.

Theorem C148_concat_filter :
  forall (T : Type) (NT : Num T) (ss : list (Serie T)) k tables (p : list T -> bool),
  ss <> [] -> 1 <= k -> reprs ss (tables_of k tables) -> len (concat tables) < 2 ^ 32 -> k * len (concat tables) < 2 ^ 32 ->
  (let* all := concat_series ss in filterV p all) ≈ (let* kept := mapO (filterV p) ss in concat_series kept).
Proof.
  intros T NT ss k tables p Hne Hk Hr Hl Hm.
  pose proof (reprs_each _ _ _ Hr) as He.
  assert (Hk2 : k < 2147483648).
  { destruct He as [|s t ss ts Hs He]; [congruence|]; apply Hs. }
  rewrite (C29_concat T NT ss k tables) by auto; cbn [obind].
  assert (Rc : rows_of_size k (concat tables)).
  { clear -He; induction He as [|s t ss ts Hs _ IH]; [constructor|apply Forall_app; split; [apply Hs|exact IH]]. }
  rewrite (filterV_ok _ k (concat tables)) by (apply repr_mk; auto; lia).
  assert (E : mapO (filterV p) ss = Ok (map (fun t => mk k t 3) (map (filter p) tables))).
  { rewrite map_map; apply mapO_parts; clear -He; induction He; constructor; [apply filterV_ok; assumption|assumption]. }
  rewrite E; cbn [obind]; eapply agree_ok; [reflexivity|].
  pose proof (len_concat_le (filter p) tables (len_filter p)) as Hc.
  rewrite (C29_concat T NT _ k (map (filter p) tables)); rewrite ?concat_filter in *; auto; try lia; try nia.
  - destruct tables; [destruct ss; [congruence|inversion He]|discriminate].
  - apply reprs_mk; apply Forall_map; clear -He; induction He as [|s t ss ts Hs _ IH]; constructor; [|exact IH].
    apply (repr_filter s k t p Hs).
Qed.
Print Assumptions C148_concat_filter.

(** ** Filtering, reducing and mapping *)
(** selecting among the mapped numbers is mapping the numbers selected by the composed predicate *)
Theorem C148_filter_map :
  forall (T : Type) (NT : Num T) (s : Serie T) xs (f : T -> T) (p : T -> bool),
  repr s 1 (col xs) ->
  (let* r := mapS f s in filterS p r) ≈ (let* r := filterS (fun x => p (f x)) s in mapS f r).
Proof.
  intros T NT s xs f p Hs; destruct (repr_col_len s xs Hs) as [_ Hb].
  rewrite (mapS_ok s xs f Hs), (filterS_ok s xs _ Hs); cbn [obind].
  rewrite (filterS_ok _ (map f xs)) by (apply repr_col_mk; rewrite len_map; lia).
  rewrite (mapS_ok _ (filter (fun x => p (f x)) xs)).
  - rewrite filter_map_comm; eapply agree_ok; reflexivity.
  - apply repr_col_mk; pose proof (len_filter (fun x => p (f x)) xs); lia.
Qed.
Print Assumptions C148_filter_map.

Theorem C148_filter_map_arrays :
  forall (T : Type) (NT : Num T) (s : Serie T) k k1 rows (f : list T -> list T) (p : list T -> bool),
  repr s k rows -> 1 <= k1 < 2 ^ 31 -> rows_of_size k1 (map f rows) -> k1 * len rows < 2 ^ 32 ->
  existsb (fun r => p (f r)) rows = true ->
  (let* r := mapV f s in filterV p r) ≈ (let* r := filterV (fun x => p (f x)) s in mapV f r).
Proof.
  intros T NT s k k1 rows f p Hs Hk1 Hr Hm Hex; apply existsb_exists in Hex as (x & Hin & Hp).
  assert (Hl : len rows < 4294967296) by apply Hs.
  rewrite (mapV_ok s k rows f k1), (filterV_ok s k rows _ Hs) by (auto; intros ->; destruct Hin); cbn [obind].
  rewrite (filterV_ok _ k1 (map f rows)) by (apply repr_mk; rewrite ?len_map; auto; lia).
  rewrite (mapV_ok _ k (filter (fun x => p (f x)) rows) f k1).
  - rewrite filter_map_comm; eapply agree_ok; reflexivity.
  - apply (repr_filter s k rows _ Hs).
  - intros E; assert (I : In x (filter (fun x => p (f x)) rows)) by (apply filter_In; auto); rewrite E in I; destruct I.
  - exact Hk1.
  - rewrite <- filter_map_comm; rewrite <- select_filter; apply select_rows; exact Hr.
Qed.
Print Assumptions C148_filter_map_arrays.

(** when nothing is selected the mapped Serie has forgotten the size of the items *)
Theorem C148_filter_map_arrays_refuted :
  exists (s : Serie F64) k k1 rows (f : list F64 -> list F64) (p : list F64 -> bool),
  repr s k rows /\ 1 <= k1 < 2 ^ 31 /\ rows_of_size k1 (map f rows) /\ k1 * len rows < 2 ^ 32 /\ rows <> [] /\
  exists l r, (let* r := mapV f s in filterV p r) = Ok l /\ (let* r := filterV (fun x => p (f x)) s in mapV f r) = Ok r /\
    itemSize l = k1 /\ isValid l = true /\ itemSize r = 0 /\ isValid r = false.
Proof.
  exists (mk 2 [[#1; #2]] 3), 2, 2, [[#1; #2]], (fun r => r), (fun _ => false).
  split; [repr_ex|]; split; [lia|]; split; [repeat constructor|]; split; [reflexivity|]; split; [discriminate|].
  do 2 eexists; split; [reflexivity|]; split; [reflexivity|]; repeat split; reflexivity.
Qed.
Print Assumptions C148_filter_map_arrays_refuted.

(** reducing a mapped or filtered Serie in one pass *)
Theorem C148_reduce :
  forall (T : Type) (NT : Num T) (s : Serie T) xs (g : T -> T -> T) (init : T),
  repr s 1 (col xs) ->
  let reduceS g s := run (reduce_s (fun a x _ => ret (g a x)) s init) in
  (forall f : T -> T, (let* r := mapS f s in reduceS g r) ≈ reduceS (fun a x => g a (f x)) s) /\
  (forall p : T -> bool, (let* r := filterS p s in reduceS g r) ≈ reduceS (fun a x => if p x then g a x else a) s).
Proof.
  intros T NT s xs g init Hs reduceS; destruct (repr_col_len s xs Hs) as [_ Hb]; unfold reduceS; split.
  - intros f; rewrite (mapS_ok s xs f Hs), (C23_reduce_fold_left T NT s xs _ init Hs); cbn [obind].
    rewrite (C23_reduce_fold_left T NT _ (map f xs) g init), fold_left_mapped by (apply repr_col_mk; rewrite len_map; lia).
    eapply agree_ok; reflexivity.
  - intros p; rewrite (filterS_ok s xs p Hs), (C23_reduce_fold_left T NT s xs _ init Hs); cbn [obind].
    pose proof (len_filter p xs).
    rewrite (C23_reduce_fold_left T NT _ (filter p xs) g init), fold_left_filter by (apply repr_col_mk; lia).
    eapply agree_ok; reflexivity.
Qed.
Print Assumptions C148_reduce.

(** ** Working part by part *)
(** splitting a Serie, treating the parts and joining them again is treating the Serie *)
Theorem C148_partition_n :
  forall (T : Type) (NT : Num T) (s : Serie T) n, 1 <= n < 2 ^ 32 ->
  (forall xs (f : T -> T), repr s 1 (col xs) ->
     (let* parts := partition_n n s in let* mapped := mapO (mapS f) parts in concat_series mapped) ≈ mapS f s) /\
  (forall k rows (p : list T -> bool), 1 <= k -> repr s k rows ->
     (let* parts := partition_n n s in let* kept := mapO (filterV p) parts in concat_series kept) ≈ filterV p s).
Proof.
  intros T NT s n Hn; split.
  - intros xs f Hs; destruct (partition_n_parts s 1 (col xs) n Hs Hn) as [E Et].
    set (sizes := map (sz _ _) _) in *; rewrite E; cbn [obind].
    assert (Sc : forall l : list T, split_sizes sizes (col l) = map (@col T) (split_sizes sizes l)).
    { generalize sizes; clear; induction sizes as [|z zs IH]; intros l; [reflexivity|].
      cbn [split_sizes map]; unfold col in *; rewrite firstn_map, skipn_map, IH; reflexivity. }
    rewrite Sc; set (xss := split_sizes sizes xs).
    assert (Ec : concat xss = xs).
    { unfold xss; apply concat_split_sizes; unfold col in Et; rewrite map_length in Et; lia. }
    destruct (repr_col_len s xs Hs) as [_ Hb].
    assert (Hne : xss <> []).
    { unfold xss, sizes; destruct (Nat.max 1 (Nat.min (Z.to_nat n) (length (col xs)))) eqn:En; [lia|discriminate]. }
    assert (Hr : reprs (map (fun r => mk 1 r 3) (map (@col T) xss)) (tables_of 1 (map (@col T) xss))).
    { apply reprs_mk, Forall_map, Forall_forall; intros l Hin; apply repr_col_mk.
      pose proof (len_concat_part l xss Hin) as Q; rewrite Ec in Q; lia. }
    destruct (C148_concat_map T NT (map (fun r => mk 1 r 3) (map (@col T) xss)) xss f) as [Q _].
    + destruct xss; [congruence|discriminate].
    + exact Hr.
    + rewrite Ec; lia.
    + rewrite <- Q, (C29_concat T NT _ 1 (map (@col T) xss)); rewrite ?concat_cols, ?len_col, ?Ec; auto; try lia.
      * cbn [obind]; eapply agree_ok; apply mapS_ok; [apply repr_col_mk; lia|exact Hs].
      * destruct xss; [congruence|discriminate].
  - intros k rows p Hk Hs; destruct (partition_n_parts s k rows n Hs Hn) as [E Et].
    set (sizes := map (sz _ _) _) in *; rewrite E; cbn [obind]; set (parts := split_sizes sizes rows).
    assert (Ec : concat parts = rows) by (unfold parts; apply concat_split_sizes; lia).
    assert (Hk2 : 0 <= k < 2147483648) by apply Hs; assert (Hl : len rows < 4294967296) by apply Hs.
    assert (Hm : k * len rows < 4294967296) by apply Hs.
    assert (Hne : parts <> []).
    { unfold parts, sizes; destruct (Nat.max 1 (Nat.min (Z.to_nat n) (length rows))) eqn:En; [lia|discriminate]. }
    assert (Hr : reprs (map (fun r => mk k r 3) parts) (tables_of k parts)).
    { apply reprs_mk, Forall_forall; intros t Hin; pose proof (len_concat_part t parts Hin) as Q; rewrite Ec in Q.
      apply repr_mk; try lia; try nia.
      pose proof (split_sizes_rows k sizes rows ltac:(apply Hs)) as Hall; rewrite Forall_forall in Hall; apply Hall; exact Hin. }
    destruct (C148_concat_filter T NT (map (fun r => mk k r 3) parts) k parts p) as [Q _]; rewrite ?Ec; auto.
    + destruct parts; [congruence|discriminate].
    + rewrite <- Q, (C29_concat T NT _ k parts); rewrite ?Ec; auto.
      * cbn [obind]; eapply agree_ok; apply filterV_ok; [apply repr_mk; auto; apply Hs|exact Hs].
      * destruct parts; [congruence|discriminate].
Qed.
Print Assumptions C148_partition_n.

(** ** Side by side *)
(** filtering several Series by their rows is zipping them, filtering the long rows and unzipping *)
Theorem C148_zip_filter :
  forall (T : Type) (NT : Num T) (ss : list (Serie T)) kts n (p : list T -> bool),
  ss <> [] -> reprs ss kts -> same_count n kts -> Forall (fun kt => 1 <= fst kt) kts ->
  sumZ (map fst kts) < 2 ^ 31 -> sumZ (map fst kts) * n < 2 ^ 32 ->
  (let* z := zip_series ss in let* kept := filterV p z in unzip kept (map fst kts))
  ≈ run (filterAll (fun rows => ret (p (concat rows))) ss).
Proof.
  intros T NT ss kts n p Hne Hr Hc Hv HK Hm.
  assert (Hn : 0 <= n < 4294967296).
  { destruct Hr as [|s0 [k t] ss kts Hs Hr]; [congruence|]; inversion Hc as [|? ? Hl Hc']; subst; simpl in *.
    pose proof (len_nonneg t); assert (len t < 4294967296) by apply Hs; lia. }
  assert (Hp : 0 <= sumZ (map fst kts)) by (eapply sumZ_nonneg; exact Hr).
  assert (Hc' : same_count (Z.of_nat (Z.to_nat n)) kts) by (rewrite Z2Nat.id by lia; exact Hc).
  destruct (C35_zip T NT ss kts n Hne Hr Hc Hv HK Hm) as [-> _]; cbn [obind].
  set (tup := tuples (Z.to_nat n) (map snd kts)); set (K := sumZ (map fst kts)) in *.
  assert (Hz : repr (mk K (map (@concat T) tup) 3) K (map (@concat T) tup)).
  { apply repr_mk; try lia.
    + apply Forall_map, Forall_map, Forall_forall; intros i Hi; apply in_seq in Hi.
      apply (across_width ss kts (Z.to_nat n) i Hr Hc'); lia.
    + unfold tup; rewrite len_map, tuples_len_Z; lia.
    + unfold tup; rewrite len_map, tuples_len_Z; lia. }
  rewrite (filterV_ok _ K _ p Hz); cbn [obind]; set (bs := map (fun r => p (concat r)) tup).
  assert (Cs : forall ks (rows : list (list T)), columns ks (select rows bs) = map (fun t => select t bs) (columns ks rows)).
  { induction ks as [|k ks IH]; intros rows; cbn [columns map]; [reflexivity|].
    rewrite <- IH, !select_map; reflexivity. }
  destruct (C18_multi_filter_aligned T NT unit ss kts n tt tt bs Hne Hr Hc) as [_ A].
  destruct (A (fun rows => ret (p (concat rows))) (calls_pure1 (fun r => p (concat r)) tup 0 tt)) as [F _].
  unfold run; rewrite F; cbn [fst]; eapply agree_ok; [|reflexivity].
  pose proof (repr_filter _ K _ p Hz) as Hf.
  assert (Ef : filter p (map (@concat T) tup) = select (map (@concat T) tup) bs).
  { unfold bs; rewrite <- select_filter, map_map; reflexivity. }
  rewrite Ef in *; rewrite (unzip_ok _ K (select (map (@concat T) tup) bs) (map fst kts)); auto.
  - f_equal; unfold as_series; rewrite Cs; unfold tup at 1; rewrite (columns_zip ss kts (Z.to_nat n) Hr Hc').
    generalize bs; clear; intros bs; induction kts as [|[k t] kts IH]; [reflexivity|]; simpl; rewrite IH; reflexivity.
  - intros E; apply map_eq_nil in E; subst; inversion Hr; congruence.
  - apply Forall_map; eapply Forall_impl; [|exact Hv]; simpl; lia.
Qed.
Print Assumptions C148_zip_filter.

(** ** Sorting *)
Lemma sorted_filter (p : R -> bool) (l : list R) : StronglySorted Rle l -> StronglySorted Rle (filter p l).
Proof.
  induction 1 as [|x l Hs IH Hall]; simpl; [constructor|]; destruct (p x); [|exact IH]; constructor; [exact IH|].
  rewrite Forall_forall in *; intros y Hy; apply filter_In in Hy; apply Hall, Hy.
Qed.
Lemma sorted_map (f : R -> R) (l : list R) : (forall x y, (x <= y)%R -> (f x <= f y)%R) ->
  StronglySorted Rle l -> StronglySorted Rle (map f l).
Proof.
  intros Hf; induction 1 as [|x l Hs IH Hall]; simpl; constructor; [exact IH|].
  rewrite Forall_map; eapply Forall_impl; [|exact Hall]; intros y; apply Hf.
Qed.
Lemma perm_filter {A} (p : A -> bool) (a b : list A) : Permutation a b -> Permutation (filter p a) (filter p b).
Proof.
  induction 1 as [|x a b _ IH|x y a|a b c _ IH1 _ IH2]; simpl; [constructor|destruct (p x); [constructor|]; exact IH| |].
  - destruct (p x), (p y); try reflexivity; constructor.
  - etransitivity; eassumption.
Qed.

(** numbers sorted before or after selecting, and before or after applying a non-decreasing function *)
Theorem C148_sort :
  forall (sorter : Sorter) (s : Serie R) xs, conforms sorter -> repr s 1 (col xs) ->
  let sortS s := sort_default (H := r_num) sorter s in
  (forall p : R -> bool, (let* r := sortS s in filterS (NT := r_num) p r) ≈ (let* r := filterS (NT := r_num) p s in sortS r)) /\
  (forall f : R -> R, (forall x y, (x <= y)%R -> (f x <= f y)%R) ->
     (let* r := sortS s in mapS (NT := r_num) f r) ≈ (let* r := mapS (NT := r_num) f s in sortS r)).
Proof.
  intros sorter s xs Hc Hs sortS; destruct (repr_col_len s xs Hs) as [_ Hb].
  assert (So : forall (s : Serie R) l, repr s 1 (col l) -> exists l', sortS s = Ok (mk 1 (col l') 3) /\ Permutation l l' /\ StronglySorted Rle l').
  { intros s0 l H0; destruct (Hc R (@n_ltb R r_num) l (r_swo l)) as [P S]; exists (sorter R (@n_ltb R r_num) l); split; [|split; [exact P|apply sorted_lt_le, S]].
    unfold sortS, sort_default; apply (@sort_scalar R r_num sorter s0 l lex_lt H0 (r_swo l)).
    unfold len; f_equal; symmetry; apply Permutation_length, P. }
  destruct (So s xs Hs) as (ys & -> & P & Sy); cbn [obind].
  assert (Ly : len ys = len xs) by (unfold len; f_equal; symmetry; apply Permutation_length, P).
  assert (Ry : repr (mk 1 (col ys) 3) 1 (col ys)) by (apply repr_col_mk; lia).
  split.
  - intros p; rewrite (@filterS_ok R r_num _ ys p Ry), (@filterS_ok R r_num s xs p Hs); cbn [obind].
    destruct (So (mk 1 (col (filter p xs)) 3) (filter p xs)) as (zs & -> & Pz & Sz).
    { apply repr_col_mk; pose proof (len_filter p xs); lia. }
    replace (filter p ys) with zs; [eapply agree_ok; reflexivity|].
    apply sorted_eq; [|exact Sz|apply sorted_filter; exact Sy].
    rewrite <- Pz; apply perm_filter; exact P.
  - intros f Hf; rewrite (@mapS_ok R r_num _ ys f Ry), (@mapS_ok R r_num s xs f Hs); cbn [obind].
    destruct (So (mk 1 (col (map f xs)) 3) (map f xs)) as (zs & -> & Pz & Sz).
    { apply repr_col_mk; rewrite len_map; lia. }
    replace (map f ys) with zs; [eapply agree_ok; reflexivity|].
    apply sorted_eq; [|exact Sz|apply sorted_map; assumption].
    rewrite <- Pz; apply Permutation_map; exact P.
Qed.
Print Assumptions C148_sort.

Example C148_witness :
  let a := mk 1 (col [#3; #1]) 3 in let b := mk 1 (col [#2]) 3 in
  repr a 1 (col [#3; #1]) /\ repr b 1 (col [#2]) /\
  (let* ab := merge2 a b false in mapS (fun x => n_add x x) ab)
  = Ok (mk 1 (col [n_add #3 #3; n_add #2 #2; n_add #1 #1]) 3) /\
  (let* z := zip_series [a; a] in let* kept := filterV (fun r => n_ltb #1 (nth 0 r #0)) z in unzip kept [1; 1])
  = Ok [mk 1 (col [#3]) 3; mk 1 (col [#3]) 3] /\
  conforms insertion_sorter.
Proof.
  split; [repr_ex|]; split; [repr_ex|]; split; [reflexivity|]; split; [|exact insertion_sorter_conforms].
  assert (P1 : n_ltb #1 #1 = false) by (vm_compute; reflexivity).
  assert (P3 : n_ltb #1 #3 = true) by (vm_compute; reflexivity).
  change (zip_series [mk 1 (col [#3; #1]) 3; mk 1 (col [#3; #1]) 3]) with (Ok (mk 2 [[#3; #3]; [#1; #1]] 3)); cbn [obind].
  rewrite (filterV_ok _ 2 [[#3; #3]; [#1; #1]]) by repr_ex; cbn [filter nth]; rewrite P1, P3; reflexivity.
Qed.
