(** * C23, C27 - C30: merge, concat, reduce over a concatenation. *)
From Verif Require Import Base Num Serie Spec BaseFacts SerieFacts Functional FunctionalFacts Utils UtilsFacts
  F64 F64Facts Props_Functional Props_Filter Props_Fold.
From Coq Require Import Permutation.

Ltac Zify.zify_post_hook ::= Z.div_mod_to_equations.
Opaque f64_of_Z.
#[local] Existing Instance F64N.

Section C27.
  Context {T : Type} {NT : Num T}.

  Lemma merge2_concat (s1 s2 : Serie T) k r1 r2 :
    repr s1 k r1 -> repr s2 k r2 ->
    len (r1 ++ r2) < 4294967296 -> k * len (r1 ++ r2) < 4294967296 ->
    merge2 s1 s2 true = Ok (mk k (r1 ++ r2) 3).
  Proof.
    intros H1 H2 Hl Hm; unfold merge2.
    rewrite (repr_itemSize _ _ _ H1), (repr_itemSize _ _ _ H2), Z.eqb_refl; cbn [negb].
    rewrite (repr_count _ _ _ H1), (repr_count _ _ _ H2), <- len_app.
    pose proof (len_nonneg (r1 ++ r2)); destruct H1 as (X1 & X2 & X3 & X4 & Hk & X5) eqn:E1; clear E1.
    rewrite u32_small, s32_small by lia.
    rewrite (emits_run (fun st => let* st1 := put_next_all s1 st in put_next_all s2 st1) k (r1 ++ r2)); auto.
    apply emits_seq; apply emits_put_all; auto.
  Qed.

  Lemma merge2_interleave (s1 s2 : Serie T) k r1 r2 :
    repr s1 k r1 -> repr s2 k r2 ->
    len (r1 ++ r2) < 4294967296 -> k * len (r1 ++ r2) < 4294967296 ->
    merge2 s1 s2 false = Ok (mk k (interleave r1 r2) 3).
  Proof.
    intros H1 H2 Hl Hm; unfold merge2.
    rewrite (repr_itemSize _ _ _ H1), (repr_itemSize _ _ _ H2), Z.eqb_refl; cbn [negb].
    rewrite (repr_count _ _ _ H1), (repr_count _ _ _ H2), <- len_app.
    pose proof (len_nonneg (r1 ++ r2)); assert (Hk : 0 <= k < 2147483648) by apply H1.
    rewrite u32_small, s32_small by lia.
    assert (El : len (r1 ++ r2) = len (interleave r1 r2)).
    { unfold len; f_equal; apply Permutation_length, interleave_perm. }
    rewrite El in *.
    assert (Em : emits (foldO (fun st i => let* st1 := put_next_if s1 i st in put_next_if s2 i st1)
                         (iota (Z.max (len r1) (len r2)))) k (interleave r1 r2)).
    { set (n := Nat.max (length r1) (length r2)).
      replace (iota (Z.max (len r1) (len r2))) with (map Z.of_nat (seq 0 n))
        by (unfold iota, n, len; do 2 f_equal; lia).
      apply (emits_ext (foldO (fun st i => let* st1 := put_next_if s1 (Z.of_nat i) st in
                                           put_next_if s2 (Z.of_nat i) st1) (seq 0 n))).
      - intros st; rewrite foldO_map; reflexivity.
      - rewrite <- (interleave_at r1 r2 n) by (unfold n; lia).
        apply (emits_foldO (fun i st => let* st1 := put_next_if s1 (Z.of_nat i) st in put_next_if s2 (Z.of_nat i) st1)).
        intros i _; apply emits_seq; apply emits_put_if; assumption. }
    rewrite (emits_run _ k (interleave r1 r2) Em); auto.
  Qed.
End C27.

(** ** C27 *)
Theorem C27_merge_concat :
  forall (T : Type) (NT : Num T) (s1 s2 : Serie T) k r1 r2,
  repr s1 k r1 -> repr s2 k r2 ->
  len (r1 ++ r2) < 2 ^ 32 -> k * len (r1 ++ r2) < 2 ^ 32 ->
  merge2 s1 s2 true = Ok (mk k (r1 ++ r2) 3).
Proof. intros; apply merge2_concat; auto. Qed.
Print Assumptions C27_merge_concat.

Theorem C27_merge_refused :
  forall (T : Type) (NT : Num T) (s1 s2 : Serie T) concatenate,
  itemSize s1 <> itemSize s2 -> merge2 s1 s2 concatenate = Throw InvalidArgument.
Proof.
  intros T NT s1 s2 c Hne; unfold merge2; destruct (Z.eqb_spec (itemSize s1) (itemSize s2)); [congruence|reflexivity].
Qed.
Print Assumptions C27_merge_refused.

Theorem C27_merge_associative :
  forall (T : Type) (NT : Num T) (a b c : Serie T) k ra rb rc,
  repr a k ra -> repr b k rb -> repr c k rc ->
  len (ra ++ rb ++ rc) < 2 ^ 32 -> k * len (ra ++ rb ++ rc) < 2 ^ 32 ->
  exists ab bc r, merge2 a b true = Ok ab /\ merge2 b c true = Ok bc /\
    merge2 ab c true = Ok r /\ merge2 a bc true = Ok r /\ repr r k (ra ++ rb ++ rc).
Proof.
  intros T NT a b c k ra rb rc Ha Hb Hc Hl Hm.
  assert (Hk : 0 <= k < 2147483648) by apply Ha.
  rewrite !len_app in Hl, Hm.
  pose proof (len_nonneg ra); pose proof (len_nonneg rb); pose proof (len_nonneg rc).
  assert (Lab : len (ra ++ rb) = len ra + len rb) by apply len_app.
  assert (Lbc : len (rb ++ rc) = len rb + len rc) by apply len_app.
  assert (Rab : repr (mk k (ra ++ rb) 3) k (ra ++ rb)).
  { apply repr_mk; auto; try nia; apply rows_app; split; [apply Ha|apply Hb]. }
  assert (Rbc : repr (mk k (rb ++ rc) 3) k (rb ++ rc)).
  { apply repr_mk; auto; try nia; apply rows_app; split; [apply Hb|apply Hc]. }
  exists (mk k (ra ++ rb) 3), (mk k (rb ++ rc) 3), (mk k (ra ++ rb ++ rc) 3).
  split; [apply merge2_concat; auto; nia|]; split; [apply merge2_concat; auto; nia|].
  split; [rewrite app_assoc; apply merge2_concat; auto; rewrite !len_app; nia|].
  split; [apply merge2_concat; auto; rewrite !len_app; nia|].
  apply repr_mk; auto; rewrite ?len_app; try lia.
  rewrite !rows_app; split; [apply Ha|split; [apply Hb|apply Hc]].
Qed.
Print Assumptions C27_merge_associative.

(** ** the variadic forms *)
Definition tables_of {T} k (tables : list (list (list T))) : list (Z * list (list T)) := map (fun t => (k, t)) tables.

Section MergeN.
  Context {T : Type} {NT : Num T}.

  Lemma reprs_sizes (ss : list (Serie T)) k tables :
    reprs ss (tables_of k tables) -> map itemSize ss = map (fun _ => k) ss /\ map count ss = map len tables.
  Proof.
    revert tables; induction ss as [|s ss IH]; intros tables Hr; inversion Hr as [|? kt ? kts Hs Hr' E1 E2]; subst.
    - destruct tables; [split; reflexivity|discriminate].
    - destruct tables as [|t tables]; [discriminate|]; injection E2 as -> ->; simpl in Hs.
      destruct (IH tables Hr') as [Ea Eb]; simpl; rewrite Ea, Eb.
      rewrite (repr_itemSize _ _ _ Hs), (repr_count _ _ _ Hs); split; reflexivity.
  Qed.
  Lemma all_equal_const {A} (l : list A) k : all_equal (map (fun _ => k) l) = true.
  Proof.
    induction l as [|x [|y l] IH]; [reflexivity|reflexivity|].
    change (((k =? k) && all_equal (map (fun _ => k) (y :: l))) = true); rewrite Z.eqb_refl; exact IH.
  Qed.
  Lemma all_equal_spec l : all_equal l = true -> forall x y, In x l -> In y l -> x = y.
  Proof.
    assert (G : forall l x, all_equal (x :: l) = true -> forall y, In y l -> y = x).
    { induction l0 as [|z l0 IH]; intros x E y Hy; [destruct Hy|].
      change (((z =? x) && all_equal (z :: l0)) = true) in E; apply andb_prop in E; destruct E as [E1 E2].
      apply Z.eqb_eq in E1; subst; destruct Hy as [<-|Hy]; [reflexivity|]; apply (IH x E2 y Hy). }
    destruct l as [|a l]; intros E x y Hx Hy; [destruct Hx|].
    transitivity a; [destruct Hx as [<-|Hx]|destruct Hy as [<-|Hy]]; auto; [|symmetry]; apply (G l a E); assumption.
  Qed.
  Lemma sum_counts tables : fold_right Z.add 0 (map len tables) = len (@concat (list T) tables).
  Proof. induction tables as [|t ts IH]; [reflexivity|]; simpl; rewrite len_app, IH; reflexivity. Qed.
  Lemma max_longest (tables : list (list (list T))) :
    fold_right Z.max 0 (map len tables) = Z.of_nat (longest tables).
  Proof.
    unfold longest; induction tables as [|t ts IH]; [reflexivity|]; cbn [map fold_right]; rewrite IH; unfold len; lia.
  Qed.
  Lemma emits_reprs_all (ss : list (Serie T)) k tables :
    reprs ss (tables_of k tables) -> emits (foldO (fun st s => put_next_all s st) ss) k (concat tables).
  Proof.
    revert tables; induction ss as [|s ss IH]; intros tables Hr; inversion Hr as [|? kt ? kts Hs Hr' E1 E2]; subst.
    - destruct tables; [apply emits_nil|discriminate].
    - destruct tables as [|t tables]; [discriminate|]; injection E2 as -> ->; simpl in *.
      apply (emits_seq (put_next_all s) (foldO (fun st s => put_next_all s st) ss)); [apply emits_put_all; exact Hs|].
      apply IH; exact Hr'.
  Qed.
  Lemma emits_reprs_if (ss : list (Serie T)) k tables i :
    reprs ss (tables_of k tables) ->
    emits (foldO (fun st s => put_next_if s (Z.of_nat i) st) ss) k (flat_map (fun t => at_ t i) tables).
  Proof.
    revert tables; induction ss as [|s ss IH]; intros tables Hr; inversion Hr as [|? kt ? kts Hs Hr' E1 E2]; subst.
    - destruct tables; [apply emits_nil|discriminate].
    - destruct tables as [|t tables]; [discriminate|]; injection E2 as -> ->; simpl in *.
      apply (emits_seq (put_next_if s (Z.of_nat i)) (foldO (fun st s => put_next_if s (Z.of_nat i) st) ss));
        [apply emits_put_if; exact Hs|apply IH; exact Hr'].
  Qed.
End MergeN.

Theorem C27_merge_variadic :
  forall (T : Type) (NT : Num T) (ss : list (Serie T)) k tables,
  ss <> [] -> reprs ss (tables_of k tables) ->
  len (concat tables) < 2 ^ 32 -> k * len (concat tables) < 2 ^ 32 ->
  mergeN true ss = Ok (mk k (concat tables) 3).
Proof.
  intros T NT ss k tables Hne Hr Hl Hm; unfold mergeN; destruct ss as [|s0 ss]; [congruence|].
  pose proof (len_nonneg (concat tables)).
  assert (Hk : 0 <= k < 2147483648).
  { inversion Hr as [|? kt ? kts Hs Hr' E1 E2]; subst; destruct tables; [discriminate|].
    injection E2 as -> ->; apply Hs. }
  assert (H0 : itemSize s0 = k).
  { destruct (reprs_sizes _ _ _ Hr) as [E _]; simpl in E; injection E as E _; exact E. }
  destruct (reprs_sizes _ _ _ Hr) as [E1 E2]; rewrite E1, all_equal_const, E2, sum_counts, H0; cbn [negb].
  rewrite u32_small, s32_small by lia.
  rewrite (emits_run _ k (concat tables) (emits_reprs_all (s0 :: ss) k tables Hr)); auto.
Qed.
Print Assumptions C27_merge_variadic.

Theorem C27_merge_variadic_refused :
  forall (T : Type) (NT : Num T) (ss : list (Serie T)) s1 s2 concatenate,
  In s1 ss -> In s2 ss -> itemSize s1 <> itemSize s2 -> mergeN concatenate ss = Throw InvalidArgument.
Proof.
  intros T NT ss s1 s2 c H1 H2 Hne; unfold mergeN; destruct ss as [|s0 ss]; [destruct H1|].
  destruct (all_equal (map itemSize (s0 :: ss))) eqn:E; [|reflexivity].
  exfalso; apply Hne, (all_equal_spec _ E); apply in_map; assumption.
Qed.
Print Assumptions C27_merge_variadic_refused.

Example C27_witness :
  let a := mk 2 [[#1; #2]] 3 in let b := mk 2 [[#3; #4]; [#5; #6]] 3 in
  repr a 2 [[#1; #2]] /\ repr b 2 [[#3; #4]; [#5; #6]] /\
  merge2 a b true = Ok (mk 2 [[#1; #2]; [#3; #4]; [#5; #6]] 3).
Proof. split; [repr_ex|]; split; [repr_ex|reflexivity]. Qed.

(** ** C28 *)
Theorem C28_merge_interleave :
  forall (T : Type) (NT : Num T) (s1 s2 : Serie T) k r1 r2,
  repr s1 k r1 -> repr s2 k r2 ->
  len (r1 ++ r2) < 2 ^ 32 -> k * len (r1 ++ r2) < 2 ^ 32 ->
  merge2 s1 s2 false = Ok (mk k (interleave r1 r2) 3) /\
  Permutation (r1 ++ r2) (interleave r1 r2).
Proof. intros; split; [apply merge2_interleave; auto|apply interleave_perm]. Qed.
Print Assumptions C28_merge_interleave.

Theorem C28_merge_variadic_interleave :
  forall (T : Type) (NT : Num T) (ss : list (Serie T)) k tables,
  ss <> [] -> reprs ss (tables_of k tables) ->
  len (concat tables) < 2 ^ 32 -> k * len (concat tables) < 2 ^ 32 ->
  mergeN false ss = Ok (mk k (round_robin (longest tables) tables) 3) /\
  Permutation (concat tables) (round_robin (longest tables) tables).
Proof.
  intros T NT ss k tables Hne Hr Hl Hm.
  pose proof (round_robin_perm tables (longest tables) ltac:(lia)) as P; split; [|exact P].
  unfold mergeN; destruct ss as [|s0 ss]; [congruence|].
  pose proof (len_nonneg (concat tables)).
  assert (Hk : 0 <= k < 2147483648).
  { inversion Hr as [|? kt ? kts Hs Hr' E1 E2]; subst; destruct tables; [discriminate|].
    injection E2 as -> ->; apply Hs. }
  assert (H0 : itemSize s0 = k).
  { destruct (reprs_sizes _ _ _ Hr) as [E _]; simpl in E; injection E as E _; exact E. }
  destruct (reprs_sizes _ _ _ Hr) as [E1 E2]; unfold max_count; rewrite E1, all_equal_const, E2, sum_counts, H0; cbn [negb].
  rewrite u32_small, s32_small, max_longest by lia.
  assert (El : len (concat tables) = len (round_robin (longest tables) tables)).
  { unfold len; f_equal; apply Permutation_length, P. }
  rewrite El in *.
  assert (Em : emits (foldO (fun st i => foldO (fun st s => put_next_if s i st) (s0 :: ss) st)
                        (iota (Z.of_nat (longest tables)))) k (round_robin (longest tables) tables)).
  { unfold iota; rewrite Nat2Z.id, <- round_robin_at.
    apply (emits_ext (foldO (fun st i => foldO (fun st s => put_next_if s (Z.of_nat i) st) (s0 :: ss) st)
                        (seq 0 (longest tables)))).
    - intros st; rewrite foldO_map; reflexivity.
    - apply (emits_foldO (fun i => foldO (fun st s => put_next_if s (Z.of_nat i) st) (s0 :: ss))).
      intros i _; apply emits_reprs_if; exact Hr. }
  rewrite (emits_run _ k _ Em); auto.
Qed.
Print Assumptions C28_merge_variadic_interleave.

Example C28_witness :
  let a := mk 1 (col [#1; #2; #3]) 3 in let b := mk 1 (col [#4]) 3 in let c := mk 1 (col [#5; #6]) 3 in
  merge2 a b false = Ok (mk 1 (col [#1; #4; #2; #3]) 3) /\
  mergeN false [a; b; c] = Ok (mk 1 (col [#1; #4; #5; #2; #6; #3]) 3) /\
  reprs [a; b; c] (tables_of 1 [col [#1; #2; #3]; col [#4]; col [#5; #6]]).
Proof.
  split; [reflexivity|]; split; [reflexivity|].
  constructor; [repr_ex|constructor; [repr_ex|constructor; [repr_ex|constructor]]].
Qed.

(** ** C29 *)
Section C29.
  Context {T : Type} {NT : Num T}.

  Lemma concat_check_ok (ss : list (Serie T)) k tables : forall acc,
    1 <= k -> reprs ss (tables_of k tables) -> 0 <= acc -> acc + len (concat tables) < 4294967296 ->
    foldO (fun totalCount s =>
             if negb (isValid s) || negb (itemSize s =? k) then Throw InvalidArgument
             else Ok (u32 (totalCount + count s))) ss acc = Ok (acc + len (concat tables)).
  Proof.
    revert tables; induction ss as [|s ss IH]; intros tables acc Hk Hr Ha Hb;
      inversion Hr as [|? kt ? kts Hs Hr' E1 E2]; subst.
    - destruct tables; [simpl; rewrite Z.add_0_r; reflexivity|discriminate].
    - destruct tables as [|t tables]; [discriminate|]; injection E2 as -> ->; simpl in Hs, Hb.
      rewrite len_app in Hb; pose proof (len_nonneg t); pose proof (len_nonneg (concat tables)).
      cbn [foldO]; unfold isValid; rewrite (repr_itemSize_ _ _ _ Hs), (repr_itemSize _ _ _ Hs), (repr_count _ _ _ Hs).
      destruct (Z.ltb_spec 0 k); [|lia]; rewrite Z.eqb_refl; cbn [negb orb obind].
      rewrite u32_small, (IH tables) by (auto; lia).
      cbn [concat]; rewrite len_app; f_equal; lia.
  Qed.

  Lemma concat_check_bad (ss : list (Serie T)) k : forall s acc,
    In s ss -> isValid s = false \/ itemSize s <> k ->
    foldO (fun totalCount s =>
             if negb (isValid s) || negb (itemSize s =? k) then Throw InvalidArgument
             else Ok (u32 (totalCount + count s))) ss acc = Throw InvalidArgument.
  Proof.
    induction ss as [|s0 ss IH]; intros s acc Hin Hbad; [destruct Hin|]; cbn [foldO].
    destruct (negb (isValid s0) || negb (itemSize s0 =? k)) eqn:E; [reflexivity|].
    cbn [obind]; apply (IH s); auto; destruct Hin as [<-|Hin]; auto.
    apply orb_false_elim in E; destruct E as [E1 E2].
    apply negb_false_iff in E1, E2; apply Z.eqb_eq in E2; destruct Hbad; congruence.
  Qed.
End C29.

Theorem C29_concat :
  forall (T : Type) (NT : Num T) (ss : list (Serie T)) k tables,
  ss <> [] -> 1 <= k -> reprs ss (tables_of k tables) ->
  len (concat tables) < 2 ^ 32 -> k * len (concat tables) < 2 ^ 32 ->
  concat_series ss = Ok (mk k (concat tables) 3).
Proof.
  intros T NT ss k tables Hne Hk1 Hr Hl Hm; unfold concat_series; destruct ss as [|s0 ss]; [congruence|].
  pose proof (len_nonneg (concat tables)).
  assert (Hk : 0 <= k < 2147483648).
  { inversion Hr as [|? kt ? kts Hs Hr' E1 E2]; subst; destruct tables; [discriminate|].
    injection E2 as -> ->; apply Hs. }
  assert (H0 : itemSize s0 = k).
  { destruct (reprs_sizes _ _ _ Hr) as [E _]; simpl in E; injection E as E _; exact E. }
  rewrite H0; unfold concat_check; rewrite (concat_check_ok (s0 :: ss) k tables 0) by (auto; lia).
  cbn [obind]; rewrite Z.add_0_l, s32_small by lia.
  rewrite (emits_run _ k (concat tables) (emits_reprs_all (s0 :: ss) k tables Hr)); auto.
Qed.
Print Assumptions C29_concat.

(** refused exactly when empty, an invalid Serie, or differing item sizes (for valid lists the theorem above gives a result) *)
Theorem C29_concat_refused :
  forall (T : Type) (NT : Num T) (ss : list (Serie T)),
  (ss = [] \/ (exists s, In s ss /\ isValid s = false) \/
   (exists s1 s2, In s1 ss /\ In s2 ss /\ itemSize s1 <> itemSize s2)) ->
  concat_series ss = Throw InvalidArgument.
Proof.
  intros T NT ss H; unfold concat_series; destruct ss as [|s0 ss]; [reflexivity|].
  assert (G : exists s, In s (s0 :: ss) /\ (isValid s = false \/ itemSize s <> itemSize s0)).
  { destruct H as [H|[(s & Hi & Hv)|(s1 & s2 & H1 & H2 & Hne)]]; [discriminate|exists s; auto|].
    destruct (Z.eq_dec (itemSize s1) (itemSize s0)) as [E|E]; [exists s2; split; [exact H2|right; congruence]|].
    exists s1; auto. }
  destruct G as (s & Hi & Hb); unfold concat_check.
  rewrite (concat_check_bad (s0 :: ss) (itemSize s0) s 0 Hi Hb); reflexivity.
Qed.
Print Assumptions C29_concat_refused.

Example C29_witness :
  let a := mk 2 [[#1; #2]] 3 in let b := mk 2 [[#3; #4]; [#5; #6]] 3 in
  reprs [a; b] (tables_of 2 [[[#1; #2]]; [[#3; #4]; [#5; #6]]]) /\
  concat_series [a; b] = Ok (mk 2 [[#1; #2]; [#3; #4]; [#5; #6]] 3) /\
  concat_series [a; mk 1 [[#1]] 3] = Throw InvalidArgument.
Proof. split; [constructor; [repr_ex|constructor; [repr_ex|constructor]]|]; split; reflexivity. Qed.

(** ** C30 *)
Theorem C30_concat_flattens :
  forall (T : Type) (NT : Num T) (xs ys : list (Serie T)) k tx ty,
  xs <> [] -> ys <> [] -> 1 <= k ->
  reprs xs (tables_of k tx) -> reprs ys (tables_of k ty) ->
  len (concat (tx ++ ty)) < 2 ^ 32 -> k * len (concat (tx ++ ty)) < 2 ^ 32 ->
  exists cx cy r, concat_series xs = Ok cx /\ concat_series ys = Ok cy /\
    concat_series [cx; cy] = Ok r /\ concat_series (xs ++ ys) = Ok r.
Proof.
  intros T NT xs ys k tx ty Hnx Hny Hk Hx Hy Hl Hm.
  rewrite concat_app, len_app in Hl, Hm.
  pose proof (len_nonneg (concat tx)); pose proof (len_nonneg (concat ty)).
  assert (Hk2 : 0 <= k < 2147483648).
  { destruct xs; [congruence|]; inversion Hx as [|? kt ? kts Hs Hr' E1 E2]; subst; destruct tx; [discriminate|].
    injection E2 as -> ->; apply Hs. }
  assert (Rx : rows_of_size k (concat tx)) by exact (proj1 (emits_reprs_all xs k tx Hx)).
  assert (Ry : rows_of_size k (concat ty)) by exact (proj1 (emits_reprs_all ys k ty Hy)).
  assert (Mx : k * len (concat tx) < 4294967296) by nia; assert (My : k * len (concat ty) < 4294967296) by nia.
  exists (mk k (concat tx) 3), (mk k (concat ty) 3), (mk k (concat tx ++ concat ty) 3).
  split; [apply C29_concat; auto; lia|]; split; [apply C29_concat; auto; lia|]; split.
  - pose proof (C29_concat T NT [mk k (concat tx) 3; mk k (concat ty) 3] k [concat tx; concat ty]) as C.
    simpl in C; rewrite app_nil_r in C; apply C; auto; try discriminate; try (rewrite len_app; assumption).
    constructor; [cbn [fst snd]; apply repr_mk; auto; lia|constructor; [cbn [fst snd]; apply repr_mk; auto; lia|constructor]].
  - rewrite <- concat_app; apply C29_concat; auto; try (rewrite concat_app, len_app; lia).
    + destruct xs; [congruence|discriminate].
    + unfold tables_of; rewrite map_app; apply Forall2_app; assumption.
Qed.
Print Assumptions C30_concat_flattens.

Theorem C30_concat_single_and_merge :
  forall (T : Type) (NT : Num T) (a b : Serie T) k ra rb,
  1 <= k -> repr a k ra -> repr b k rb ->
  concat_series [a] = Ok (mk k ra 3) /\
  (len (ra ++ rb) < 2 ^ 32 -> k * len (ra ++ rb) < 2 ^ 32 -> concat_series [a; b] = merge2 a b true).
Proof.
  intros T NT a b k ra rb Hk Ha Hb; split.
  - pose proof (C29_concat T NT [a] k [ra]) as C; simpl in C; rewrite app_nil_r in C.
    apply C; auto; try apply Ha; [discriminate|repeat constructor; apply Ha].
  - intros Hl Hm; rewrite (merge2_concat a b k ra rb) by auto.
    pose proof (C29_concat T NT [a; b] k [ra; rb]) as C; simpl in C; rewrite app_nil_r in C.
    apply C; auto; [discriminate|]; constructor; [exact Ha|constructor; [exact Hb|constructor]].
Qed.
Print Assumptions C30_concat_single_and_merge.

Example C30_witness :
  let a := mk 1 (col [#1]) 3 in let b := mk 1 (col [#2; #3]) 3 in
  concat_series [a; b; a] = Ok (mk 1 (col [#1; #2; #3; #1]) 3).
Proof. reflexivity. Qed.

(** ** C23, second part: reducing a concatenation *)
Theorem C23_reduce_concat :
  forall (T : Type) (NT : Num T) (s1 s2 : Serie T) xs ys (f : T -> T -> T) init,
  repr s1 1 (col xs) -> repr s2 1 (col ys) -> len xs + len ys < 2 ^ 32 ->
  exists s12 r1, merge2 s1 s2 true = Ok s12 /\
    run (reduce_s (fun a x _ => ret (f a x)) s1 init) = Ok r1 /\
    run (reduce_s (fun a x _ => ret (f a x)) s12 init) = run (reduce_s (fun a x _ => ret (f a x)) s2 r1).
Proof.
  intros T NT s1 s2 xs ys f init H1 H2 Hl.
  assert (Ec : col xs ++ col ys = col (xs ++ ys)) by (unfold col; rewrite map_app; reflexivity).
  exists (mk 1 (col (xs ++ ys)) 3), (fold_left f xs init).
  split; [rewrite <- Ec; apply merge2_concat; auto; rewrite len_app, !len_col; lia|].
  split; [apply (C23_reduce_fold_left T NT s1 xs f init H1)|].
  rewrite (C23_reduce_fold_left T NT s2 ys f _ H2).
  rewrite (C23_reduce_fold_left T NT (mk 1 (col (xs ++ ys)) 3) (xs ++ ys)), fold_left_app; [reflexivity|].
  apply repr_col_mk; rewrite len_app; lia.
Qed.
Print Assumptions C23_reduce_concat.

Lemma folds_shift {St A X} (cb : A -> X -> M St A) l : forall i j a st r st',
  folds (fun a x _ => cb a x) (enum_from i l) a st r st' -> folds (fun a x _ => cb a x) (enum_from j l) a st r st'.
Proof.
  induction l as [|x l IH]; intros i j a st r st' F; simpl in *; inversion F; subst; [constructor|].
  econstructor; [eassumption|eapply IH; eassumption].
Qed.
Lemma folds_app {St A X} (cb : A -> X -> M St A) l1 l2 : forall a st r1 st1 r2 st2 i j k,
  folds (fun a x _ => cb a x) (enum_from i l1) a st r1 st1 ->
  folds (fun a x _ => cb a x) (enum_from j l2) r1 st1 r2 st2 ->
  folds (fun a x _ => cb a x) (enum_from k (l1 ++ l2)) a st r2 st2.
Proof.
  induction l1 as [|x l1 IH]; intros a st r1 st1 r2 st2 i j k F1 F2; simpl in *; inversion F1; subst.
  - eapply folds_shift; eassumption.
  - econstructor; [eassumption|eapply IH; eassumption].
Qed.

(** the vector form, for any index-free callback with effects *)
Theorem C23_reduce_concat_arrays :
  forall (T : Type) (NT : Num T) (St : Type) (s1 s2 : Serie T) k ra rb (cb : list T -> list T -> M St (list T)) init st r1 st1 r2 st2,
  repr s1 k ra -> repr s2 k rb -> len (ra ++ rb) < 2 ^ 32 -> k * len (ra ++ rb) < 2 ^ 32 ->
  folds (fun a x _ => cb a x) (enum ra) init st r1 st1 ->
  folds (fun a x _ => cb a x) (enum rb) r1 st1 r2 st2 -> 1 <= len r2 < 2 ^ 31 ->
  exists s12, merge2 s1 s2 true = Ok s12 /\
    reduce_v (fun a x _ => cb a x) s12 init st = (Ok (mk (len r2) [r2] 3), st2) /\
    reduce_v (fun a x _ => cb a x) s2 r1 st1 = (Ok (mk (len r2) [r2] 3), st2).
Proof.
  intros T NT St s1 s2 k ra rb cb init st r1 st1 r2 st2 H1 H2 Hl Hm F1 F2 Hr.
  exists (mk k (ra ++ rb) 3); split; [apply merge2_concat; auto|].
  destruct (C23_reduce T NT St s2 st1) as [_ B2].
  split; [|eapply B2; eassumption].
  destruct (C23_reduce T NT St (mk k (ra ++ rb) 3) st) as [_ B12].
  apply (B12 _ k (ra ++ rb)); [| |exact Hr].
  - apply repr_mk; auto; [apply rows_app; split; [apply H1|apply H2]|apply H1].
  - exact (folds_app cb ra rb init st r1 st1 r2 st2 0 0 0 F1 F2).
Qed.
Print Assumptions C23_reduce_concat_arrays.

Example C23_concat_witness :
  repr (mk 1 (col [#1; #2]) 3) 1 (col [#1; #2]) /\ repr (mk 1 (col [#3]) 3) 1 (col [#3]).
Proof. split; repr_ex. Qed.
