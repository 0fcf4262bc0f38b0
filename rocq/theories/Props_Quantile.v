(** * C70, C71, C72: quantiles and outliers. *)
From Verif Require Import Base Num Serie Spec BaseFacts SerieFacts Functional FunctionalFacts Utils Mathf MathFacts MinMaxFacts Stats StatsFacts.
From Verif Require Import F64 F64Facts OrderFacts RNum Props_Functional Props_Filter Props_Fold Props_Sort Props_MinMax.
From Coq Require Import Permutation Sorted Reals Lra.
From Flocq Require Import Core IEEE754.BinarySingleNaN.
Open Scope Z_scope.
Opaque f64_of_Z.

(** the piecewise linear function through the points (i, ss[i]) *)
Definition interp (ss : list R) (p : R) : R :=
  let b := Zfloor p in
  let at_ i := nth (Z.to_nat i) ss 0%R in
  if b + 1 <? len ss then (at_ b + (p - IZR b) * (at_ (b + 1)%Z - at_ b))%R else at_ b.

Lemma sorted_nth (ss : list R) : StronglySorted Rle ss -> forall i j, (i <= j < length ss)%nat -> (nth i ss 0 <= nth j ss 0)%R.
Proof.
  induction 1 as [|x ss Hs IH Hall]; intros i j Hij; simpl in Hij; [lia|].
  destruct i as [|i], j as [|j]; simpl; try lia; try lra.
  - rewrite Forall_forall in Hall; apply Hall, nth_In; lia.
  - apply IH; lia.
Qed.

Lemma sorted_lt_le (ss : list R) : sorted_by (@n_ltb R r_num) ss -> StronglySorted Rle ss.
Proof.
  unfold sorted_by; induction 1 as [|x ss Hs IH Hall]; constructor; auto.
  eapply Forall_impl; [|exact Hall]; intros y Hy; cbn [n_ltb r_num] in Hy; destruct (Rlt_bool_spec y x); [discriminate|lra].
Qed.
Lemma sorted_le_lt (ss : list R) : StronglySorted Rle ss -> sorted_by (@n_ltb R r_num) ss.
Proof.
  unfold sorted_by; induction 1 as [|x ss Hs IH Hall]; constructor; auto.
  eapply Forall_impl; [|exact Hall]; intros y Hy; cbn [n_ltb r_num]; apply Rlt_bool_false; exact Hy.
Qed.
Lemma r_swo (l : list R) : swo_on (@n_ltb R r_num) l = true.
Proof. apply (@keyed_swo R r_num _ _ r_ordered); apply Forall_forall; auto. Qed.
Lemma sorted_eq (a b : list R) : Permutation a b -> StronglySorted Rle a -> StronglySorted Rle b -> a = b.
Proof.
  intros P Sa Sb; pose proof (sorted_unique _ a b (r_swo a) P (sorted_le_lt a Sa) (sorted_le_lt b Sb)) as F.
  induction F as [|x y a' b' [H1 H2] _ IH]; [reflexivity|].
  f_equal.
  - cbn [n_ltb r_num] in H1, H2; destruct (Rlt_bool_spec x y); [discriminate|]; destruct (Rlt_bool_spec y x); [discriminate|]; lra.
  - assert (E : x = y) by (cbn [n_ltb r_num] in H1, H2; destruct (Rlt_bool_spec x y); [discriminate|]; destruct (Rlt_bool_spec y x); [discriminate|]; lra).
    subst y; apply IH; [eapply Permutation_cons_inv; exact P|inversion Sa; assumption|inversion Sb; assumption].
Qed.

Lemma floor_range (p : R) n : (0 <= p <= IZR n)%R -> 0 <= Zfloor p <= n.
Proof.
  intros [H1 H2]; split; [apply Zfloor_lub; exact H1|].
  rewrite <- (Zfloor_IZR n); apply Zfloor_le; exact H2.
Qed.

Lemma INR_pred n : (1 <= n)%nat -> (INR n - 1 = INR (n - 1))%R.
Proof. intros H; rewrite minus_INR by lia; reflexivity. Qed.

Section R.
  Variable sorter : Sorter.
  Hypothesis Hc : conforms sorter.

  Lemma quantile_interp (s : Serie R) xs ss q : repr s 1 (col xs) -> xs <> [] -> Permutation xs ss -> StronglySorted Rle ss ->
    (0 <= q <= 1)%R -> @quantile R r_num sorter s q = Ok (interp ss (IZR (len xs - 1) * q)).
  Proof.
    intros Hs Hne P So Hq; unfold quantile.
    rewrite (isValid_repr _ _ _ Hs), (repr_itemSize _ _ _ Hs); cbn [Z.ltb Z.compare negb Z.eqb Pos.eqb].
    cbn [n_ltb n_of_Z r_num]; rewrite (Rlt_bool_false q 0), (Rlt_bool_false 1 q) by lra; cbn [orb].
    destruct (repr_col_len s xs Hs) as [Hcnt Hb].
    destruct (Hc R (@n_ltb R r_num) xs (r_swo xs)) as [P' So'].
    assert (E : sorter R (@n_ltb R r_num) xs = ss).
    { apply sorted_eq; [rewrite <- P', P; reflexivity|apply sorted_lt_le; exact So'|exact So]. }
    unfold sort_default; rewrite (@sort_scalar R r_num sorter s xs lex_lt Hs (r_swo xs)).
    2: { unfold len; f_equal; symmetry; apply Permutation_length, P'. }
    rewrite E; cbn [obind]; unfold asArray; cbn [mk s_]; rewrite concat_col.
    assert (Ls : len ss = len xs) by (unfold len; f_equal; symmetry; apply Permutation_length, P).
    assert (L1 : 1 <= len xs) by (destruct xs; [congruence|rewrite len_cons; pose proof (len_nonneg xs); lia]).
    rewrite Ls, u64_small by lia.
    cbn [n_mul n_floor n_sub n_add n_of_Z r_num].
    set (p := (IZR (len xs - 1) * q)%R).
    assert (Hp : (0 <= p <= IZR (len xs - 1))%R).
    { assert (0 <= IZR (len xs - 1))%R by (apply IZR_le; lia); unfold p; split; [apply Rmult_le_pos; lra|].
      rewrite <- (Rmult_1_r (IZR (len xs - 1))) at 2; apply Rmult_le_compat_l; lra. }
    pose proof (floor_range p _ Hp) as Hf; set (b := Zfloor p) in *.
    unfold n_to_u32; cbn [n_to_Z r_num]; rewrite <- plus_IZR, !Ztrunc_IZR.
    assert (W : 4294967296 = two32) by reflexivity.
    replace ((0 <=? b + 1) && (b + 1 <? two32)) with true by (symmetry; apply andb_true_intro; split; [apply Z.leb_le|apply Z.ltb_lt]; lia).
    replace ((0 <=? b) && (b <? two32)) with true by (symmetry; apply andb_true_intro; split; [apply Z.leb_le|apply Z.ltb_lt]; lia).
    cbn [obind]; unfold interp; fold b; rewrite Ls; destruct (Z.ltb_spec (b + 1) (len xs)).
    - rewrite (rd_nth ss b 0%R) by lia; cbn [obind]; rewrite (rd_nth ss (b + 1) 0%R) by lia; reflexivity.
    - apply rd_nth; lia.
  Qed.
End R.

Lemma interp_between ss p : StronglySorted Rle ss -> (0 <= p <= IZR (len ss - 1))%R ->
  let b := Z.to_nat (Zfloor p) in
  (b < length ss)%nat /\ (nth b ss 0 <= interp ss p)%R /\
  ((S b < length ss)%nat -> (interp ss p <= nth (S b) ss 0)%R) /\ ((length ss <= S b)%nat -> interp ss p = nth b ss 0%R).
Proof.
  intros So Hp b; pose proof (floor_range p _ Hp) as Hf; unfold interp.
  pose proof (Zfloor_lb p) as Lb; pose proof (Zfloor_ub p) as Ub.
  assert (Hb : Z.to_nat (Zfloor p + 1) = S b) by (unfold b; lia).
  split; [unfold b, len in *; lia|].
  rewrite Hb; fold b; destruct (Z.ltb_spec (Zfloor p + 1) (len ss)) as [H|H].
  - assert (Hlt : (S b < length ss)%nat) by (unfold b, len in *; lia).
    pose proof (sorted_nth ss So b (S b) ltac:(lia)) as Hm.
    set (x := nth b ss 0%R) in *; set (y := nth (S b) ss 0%R) in *.
    assert (K : (0 <= p - IZR (Zfloor p) <= 1)%R) by lra.
    set (t := (p - IZR (Zfloor p))%R) in *.
    assert (A : (0 <= t * (y - x))%R) by (apply Rmult_le_pos; lra).
    assert (B : (t * (y - x) <= 1 * (y - x))%R) by (apply Rmult_le_compat_r; lra).
    split; [lra|]; split; [intros _; lra|intros; lia].
  - split; [lra|]; split; [intros; unfold b, len in *; lia|reflexivity].
Qed.

Lemma interp_at ss (k : nat) : (k < length ss)%nat -> interp ss (INR k) = nth k ss 0%R.
Proof.
  intros H; unfold interp; rewrite INR_IZR_INZ, Zfloor_IZR, Nat2Z.id.
  destruct (_ <? _); [|reflexivity]; ring.
Qed.

Lemma interp_mono ss p1 p2 : StronglySorted Rle ss -> (0 <= p1)%R -> (p1 <= p2)%R -> (p2 <= IZR (len ss - 1))%R -> (interp ss p1 <= interp ss p2)%R.
Proof.
  intros So H1 H12 H2.
  destruct (interp_between ss p1 So ltac:(lra)) as (B1 & L1 & U1 & E1).
  destruct (interp_between ss p2 So ltac:(lra)) as (B2 & L2 & U2 & E2).
  pose proof (Zfloor_le _ _ H12) as F.
  pose proof (floor_range p1 (len ss - 1) ltac:(lra)) as R1; pose proof (floor_range p2 (len ss - 1) ltac:(lra)) as R2.
  destruct (Z.eq_dec (Zfloor p1) (Zfloor p2)) as [E|N].
  - unfold interp; rewrite E; destruct (Z.ltb_spec (Zfloor p2 + 1) (len ss)) as [H|H]; [|lra].
    pose proof (sorted_nth ss So (Z.to_nat (Zfloor p2)) (Z.to_nat (Zfloor p2 + 1)) ltac:(unfold len in *; lia)) as Hm.
    apply Rplus_le_compat_l, Rmult_le_compat_r; lra.
  - eapply Rle_trans; [|exact L2].
    destruct (le_lt_dec (length ss) (S (Z.to_nat (Zfloor p1)))) as [H|H].
    + exfalso; unfold len in *; lia.
    + eapply Rle_trans; [apply U1; exact H|]; apply sorted_nth; [exact So|unfold len in *; lia].
Qed.

(** ** C70 *)
Theorem C70_quantile :
  forall (sorter : Sorter) (s : Serie R) xs ss,
  conforms sorter -> repr s 1 (col xs) -> xs <> [] -> Permutation xs ss -> StronglySorted Rle ss ->
  (exists m, @quantile R r_num sorter s 0%R = Ok m /\ In m xs /\ forall x, In x xs -> (m <= x)%R) /\
  (exists m, @quantile R r_num sorter s 1%R = Ok m /\ In m xs /\ forall x, In x xs -> (x <= m)%R) /\
  (forall k : nat, (k < length xs)%nat -> (2 <= length xs)%nat ->
     @quantile R r_num sorter s (INR k / (INR (length xs) - 1))%R = Ok (nth k ss 0%R)) /\
  (forall q, (0 <= q <= 1)%R ->
     exists v (k : nat), @quantile R r_num sorter s q = Ok v /\ (k < length xs)%nat /\
       (INR k <= q * (INR (length xs) - 1) < INR k + 1)%R /\
       (nth k ss 0 <= v)%R /\ ((S k < length xs)%nat -> (v <= nth (S k) ss 0)%R) /\ (k = (length xs - 1)%nat -> v = nth k ss 0%R) /\
       (forall lo hi, (forall x, In x xs -> (lo <= x <= hi)%R) -> (lo <= v <= hi)%R)).
Proof.
  intros sorter s xs ss Hc Hs Hne P So.
  assert (Ls : length ss = length xs) by (symmetry; apply Permutation_length, P).
  assert (L1 : (1 <= length xs)%nat) by (destruct xs; [congruence|simpl; lia]).
  assert (HI : forall j, (j < length xs)%nat -> In (nth j ss 0%R) xs).
  { intros j Hj; eapply Permutation_in; [symmetry; exact P|apply nth_In; lia]. }
  assert (HX : forall x, In x xs -> exists j, (j < length xs)%nat /\ x = nth j ss 0%R).
  { intros x Hx; eapply Permutation_in in Hx; [|exact P]; apply In_nth with (d := 0%R) in Hx; destruct Hx as (j & Hj & <-); exists j; split; [lia|reflexivity]. }
  assert (Ln : forall j : nat, (IZR (len xs - 1) = INR (length xs) - 1)%R) by (intros _; unfold len; rewrite minus_IZR, INR_IZR_INZ; reflexivity).
  assert (QI := fun q => quantile_interp sorter Hc s xs ss q Hs Hne P So).
  assert (K : forall k : nat, (k < length xs)%nat -> (2 <= length xs)%nat ->
     @quantile R r_num sorter s (INR k / (INR (length xs) - 1))%R = Ok (nth k ss 0%R)).
  { intros k Hk H2; assert (Pn : (0 < INR (length xs) - 1)%R) by (rewrite INR_pred by lia; apply lt_0_INR; lia).
    assert (Hk1 : (INR k <= INR (length xs) - 1)%R) by (rewrite INR_pred by lia; apply le_INR; lia).
    rewrite QI, (Ln k).
    - replace ((INR (length xs) - 1) * (INR k / (INR (length xs) - 1)))%R with (INR k) by (field; lra).
      rewrite interp_at by lia; reflexivity.
    - split; [apply Rmult_le_pos; [apply pos_INR|left; apply Rinv_0_lt_compat; exact Pn]|].
      apply Rmult_le_reg_r with (INR (length xs) - 1)%R; [exact Pn|]; unfold Rdiv; rewrite Rmult_assoc, Rinv_l by lra; lra. }
  split; [|split; [|split; [exact K|]]].
  - exists (nth 0 ss 0%R); split; [|split; [apply HI; lia|]].
    + rewrite QI by lra; rewrite Rmult_0_r; rewrite <- (interp_at ss 0) by lia; reflexivity.
    + intros x Hx; destruct (HX x Hx) as (j & Hj & ->); apply sorted_nth; [exact So|lia].
  - exists (nth (length xs - 1) ss 0%R); split; [|split; [apply HI; lia|]].
    + rewrite QI by lra; rewrite Rmult_1_r, (Ln O), INR_pred by lia; rewrite interp_at by lia; reflexivity.
    + intros x Hx; destruct (HX x Hx) as (j & Hj & ->); apply sorted_nth; [exact So|lia].
  - intros q Hq; set (p := (IZR (len xs - 1) * q)%R).
    assert (Lp : len ss = len xs) by (unfold len; f_equal; exact Ls).
    assert (Hp : (0 <= p <= IZR (len ss - 1))%R).
    { assert (0 <= IZR (len xs - 1))%R by (apply IZR_le; unfold len; lia); rewrite Lp; unfold p; split; [apply Rmult_le_pos; lra|].
      rewrite <- (Rmult_1_r (IZR (len xs - 1))) at 2; apply Rmult_le_compat_l; lra. }
    destruct (interp_between ss p So Hp) as (B & Lo & Up & E).
    pose proof (floor_range p _ Hp) as Hf.
    set (k := Z.to_nat (Zfloor p)) in *.
    assert (Ik : INR k = IZR (Zfloor p)) by (unfold k; rewrite INR_IZR_INZ, Z2Nat.id by lia; reflexivity).
    exists (interp ss p), k; split; [apply QI; exact Hq|]; split; [lia|]; split.
    { rewrite Ik, Rmult_comm, <- (Ln O); fold p; pose proof (Zfloor_lb p); pose proof (Zfloor_ub p); lra. }
    split; [exact Lo|]; split; [intros H; apply Up; lia|]; split; [intros H; apply E; lia|].
    intros lo hi H; split; [eapply Rle_trans; [apply (H (nth k ss 0%R)); apply HI; lia|exact Lo]|].
    destruct (le_lt_dec (length ss) (S k)) as [H'|H'].
    + rewrite E by exact H'; apply H; apply HI; lia.
    + eapply Rle_trans; [apply Up; exact H'|]; apply (H (nth (S k) ss 0%R)); apply HI; lia.
Qed.
Print Assumptions C70_quantile.

Theorem C70_order_of_items :
  forall (sorter : Sorter) (s s' : Serie R) xs xs' q,
  conforms sorter -> repr s 1 (col xs) -> repr s' 1 (col xs') -> xs <> [] -> Permutation xs xs' -> (0 <= q <= 1)%R ->
  @quantile R r_num sorter s q = @quantile R r_num sorter s' q.
Proof.
  intros sorter s s' xs xs' q Hc Hs Hs' Hne P Hq.
  destruct (Hc R (@n_ltb R r_num) xs (r_swo xs)) as [P1 So].
  rewrite (quantile_interp sorter Hc s xs _ q Hs Hne P1 (sorted_lt_le _ So) Hq).
  rewrite (quantile_interp sorter Hc s' xs' (sorter R (@n_ltb R r_num) xs) q Hs'); [| | |apply sorted_lt_le, So|exact Hq].
  - do 4 f_equal; unfold len; rewrite (Permutation_length P); reflexivity.
  - intros ->; apply Permutation_sym, Permutation_nil in P; congruence.
  - rewrite <- P1; symmetry; exact P.
Qed.
Print Assumptions C70_order_of_items.

Theorem C70_refused :
  forall (T : Type) (NT : Num T) (sorter : Sorter) (s : Serie T) q,
  isValid s = false \/ itemSize s <> 1 \/ n_ltb q (n_of_Z 0) = true \/ n_ltb (n_of_Z 1) q = true ->
  quantile sorter s q = Throw InvalidArgument.
Proof.
  intros T NT sorter s q H; unfold quantile.
  destruct (isValid s); [|reflexivity]; destruct (Z.eqb_spec (itemSize s) 1); [|reflexivity]; cbn [negb].
  destruct (n_ltb q _); [reflexivity|]; destruct (n_ltb _ q); [reflexivity|].
  destruct H as [H|[H|[H|H]]]; congruence.
Qed.
Print Assumptions C70_refused.

(** ** C71 *)
Theorem C71_monotone :
  forall (sorter : Sorter) (s : Serie R) xs,
  conforms sorter -> repr s 1 (col xs) -> xs <> [] ->
  (forall q1 q2, (0 <= q1)%R -> (q1 <= q2)%R -> (q2 <= 1)%R ->
     exists v1 v2, @quantile R r_num sorter s q1 = Ok v1 /\ @quantile R r_num sorter s q2 = Ok v2 /\ (v1 <= v2)%R) /\
  (exists a b c, @q25 R r_num sorter s = Ok a /\ @q50 R r_num sorter s = Ok b /\ @q75 R r_num sorter s = Ok c /\ (a <= b <= c)%R /\
     @IQR R r_num sorter s = Ok (c - a)%R /\ (0 <= c - a)%R).
Proof.
  intros sorter s xs Hc Hs Hne.
  destruct (Hc R (@n_ltb R r_num) xs (r_swo xs)) as [P So]; set (ss := sorter R _ xs) in *; apply sorted_lt_le in So.
  assert (QI := fun q => quantile_interp sorter Hc s xs ss q Hs Hne P So).
  assert (Lp : len ss = len xs) by (unfold len; f_equal; symmetry; apply Permutation_length, P).
  assert (N0 : (0 <= IZR (len xs - 1))%R) by (apply IZR_le; destruct xs; [congruence|rewrite len_cons; pose proof (len_nonneg xs); lia]).
  assert (Mo : forall q1 q2, (0 <= q1)%R -> (q1 <= q2)%R -> (q2 <= 1)%R -> (interp ss (IZR (len xs - 1) * q1) <= interp ss (IZR (len xs - 1) * q2))%R).
  { intros q1 q2 H1 H12 H2; apply interp_mono; [exact So|apply Rmult_le_pos; lra|apply Rmult_le_compat_l; lra|].
    rewrite Lp; rewrite <- (Rmult_1_r (IZR (len xs - 1))) at 2; apply Rmult_le_compat_l; lra. }
  split.
  - intros q1 q2 H1 H12 H2; do 2 eexists; split; [apply QI; lra|split; [apply QI; lra|apply Mo; assumption]].
  - unfold q25, q50, q75, IQR, n_ratio; cbn [n_div n_of_Z n_sub r_num].
    do 3 eexists; split; [apply QI; lra|]; split; [apply QI; lra|]; split; [apply QI; lra|].
    split; [split; apply Mo; lra|]; rewrite !QI by lra; split; [reflexivity|].
    pose proof (Mo (1 / 4)%R (3 / 4)%R ltac:(lra) ltac:(lra) ltac:(lra)); lra.
Qed.
Print Assumptions C71_monotone.

(** The median is the middle one of the sorted items, or half the sum of the two in the middle *)
Theorem C71_median :
  forall (sorter : Sorter) (s : Serie R) xs ss,
  conforms sorter -> repr s 1 (col xs) -> Permutation xs ss -> StronglySorted Rle ss ->
  (forall m, length xs = (2 * m + 1)%nat -> @q50 R r_num sorter s = Ok (nth m ss 0%R)) /\
  (forall m, length xs = (2 * m + 2)%nat -> @q50 R r_num sorter s = Ok ((nth m ss 0 + nth (S m) ss 0) / 2)%R).
Proof.
  intros sorter s xs ss Hc Hs P So.
  assert (Lp : len ss = len xs) by (unfold len; f_equal; symmetry; apply Permutation_length, P).
  assert (QI := fun Hne => quantile_interp sorter Hc s xs ss (1 / 2)%R Hs Hne P So ltac:(lra)).
  split; intros m Hm; (assert (Hne : xs <> []) by (intros ->; simpl in Hm; lia));
    unfold q50, n_ratio; cbn [n_div n_of_Z r_num]; rewrite (QI Hne); f_equal; unfold interp; unfold len in *; rewrite Lp, Hm.
  - assert (E : (IZR (Z.of_nat (2 * m + 1) - 1) * (1 / 2))%R = IZR (Z.of_nat m)).
    { replace (Z.of_nat (2 * m + 1) - 1) with (2 * Z.of_nat m) by lia; rewrite mult_IZR; lra. }
    rewrite E, Zfloor_IZR, Nat2Z.id; destruct (_ <? _); [|reflexivity]; lra.
  - assert (E : (IZR (Z.of_nat (2 * m + 2) - 1) * (1 / 2))%R = (IZR (Z.of_nat m) + / 2)%R).
    { replace (Z.of_nat (2 * m + 2) - 1) with (2 * Z.of_nat m + 1) by lia; rewrite plus_IZR, mult_IZR; lra. }
    rewrite E; assert (F : Zfloor (IZR (Z.of_nat m) + / 2) = Z.of_nat m) by (apply Zfloor_imp; rewrite plus_IZR; lra).
    rewrite F, Nat2Z.id; replace (Z.of_nat m + 1 <? Z.of_nat (2 * m + 2)) with true by (symmetry; apply Z.ltb_lt; lia).
    replace (Z.to_nat (Z.of_nat m + 1)) with (S m) by lia; lra.
Qed.
Print Assumptions C71_median.
Example C71_median_ex : conforms insertion_sorter /\ repr (mk 1 (col [3; 1]%R) 3) 1 (col [3; 1]%R) /\
  @q50 R r_num insertion_sorter (mk 1 (col [3; 1]%R) 3) = Ok 2%R.
Proof.
  split; [exact insertion_sorter_conforms|]; split; [repr_ex|].
  destruct (C71_median insertion_sorter (mk 1 (col [3; 1]%R) 3) [3; 1]%R [1; 3]%R) as [_ E];
    [exact insertion_sorter_conforms|repr_ex|constructor|repeat constructor; lra|].
  rewrite (E O eq_refl); f_equal; cbn [nth]; lra.
Qed.

Example C70_ex :
  conforms insertion_sorter /\ repr (mk 1 (col [3; 1]%R) 3) 1 (col [3; 1]%R) /\ Permutation [3; 1]%R [1; 3]%R /\ StronglySorted Rle [1; 3]%R /\
  @quantile R r_num insertion_sorter (mk 1 (col [3; 1]%R) 3) (1 / 4)%R = Ok (3 / 2)%R.
Proof.
  assert (P : Permutation [3; 1]%R [1; 3]%R) by constructor.
  assert (So : StronglySorted Rle [1; 3]%R) by (repeat constructor; lra).
  split; [exact insertion_sorter_conforms|]; split; [repr_ex|]; split; [exact P|]; split; [exact So|].
  rewrite (quantile_interp _ insertion_sorter_conforms _ [3; 1]%R [1; 3]%R); [|repr_ex|discriminate|exact P|exact So|lra].
  f_equal; unfold interp; change (len [3; 1]%R - 1) with 1.
  assert (E : Zfloor (1 * (1 / 4)) = 0) by (apply Zfloor_imp; change (0 + 1) with 1; lra).
  rewrite E; change (0 + 1 <? len [1; 3]%R) with true; cbv iota; change (Z.to_nat (0 + 1)) with 1%nat; change (Z.to_nat 0) with O; cbn [nth]; lra.
Qed.

(** ** C72 *)
Lemma filter_partition {A} (p q : A -> bool) l : (forall x, In x l -> q x = negb (p x)) -> Permutation l (filter p l ++ filter q l).
Proof.
  induction l as [|x l IH]; intros H; [constructor|]; simpl; rewrite (H x (or_introl eq_refl)).
  assert (Q := IH (fun y h => H y (or_intror h))); destruct (p x); simpl; [constructor; exact Q|].
  rewrite <- Permutation_middle; constructor; exact Q.
Qed.

(** the three functions in terms of the fences, for every kind of numbers *)
Theorem C72_mask_and_items :
  forall (T : Type) (NT : Num T) (sorter : Sorter) (s : Serie T) xs m lo hi,
  repr s 1 (col xs) -> fences sorter s m = Ok (lo, hi) ->
  let out x := n_ltb x lo || n_ltb hi x in
  outliers sorter s m = Ok (mk 1 (col (filter out xs)) 3) /\
  isOutliers sorter s m = Ok (mk 1 (col (map (fun x => if out x then n_of_Z 1 else n_of_Z 0) xs)) 3) /\
  notOutliers sorter s m = Ok (mk 1 (col (filter (fun x => n_leb lo x && n_leb x hi) xs)) 3).
Proof.
  intros T NT sorter s xs m lo hi Hs F out; unfold outliers, isOutliers, notOutliers; rewrite F; cbn [obind fst snd]; unfold run.
  split; [rewrite (filter_s_pure s xs out tt Hs); reflexivity|]; split.
  - destruct (C24_check_mask T NT unit s tt (map out xs) tt) as [C _].
    pose proof (C (fun v _ => ret (out v)) xs Hs (calls_pure1 _ _ _ _)) as E; unfold out, ret in E; unfold ret; rewrite E; cbn [fst]; rewrite map_map; reflexivity.
  - rewrite (filter_s_pure s xs _ tt Hs); reflexivity.
Qed.
Print Assumptions C72_mask_and_items.

Theorem C72_exact :
  forall (sorter : Sorter) (s : Serie R) xs,
  conforms sorter -> repr s 1 (col xs) -> xs <> [] ->
  exists a b, @q25 R r_num sorter s = Ok a /\ @q75 R r_num sorter s = Ok b /\
  forall m, exists out nout,
    @outliers R r_num sorter s m = Ok (mk 1 (col out) 3) /\ @notOutliers R r_num sorter s m = Ok (mk 1 (col nout) 3) /\
    Permutation xs (out ++ nout) /\
    (forall x, In x out <-> In x xs /\ (x < a - m * (b - a) \/ b + m * (b - a) < x)%R) /\
    @isOutliers R r_num sorter s m = Ok (mk 1 (col (map (fun x => if existsb (Req_bool x) out then 1%R else 0%R) xs)) 3) /\
    ((0 <= m)%R -> ~ In a out /\ ~ In b out) /\
    (forall m' out', (m <= m')%R -> @outliers R r_num sorter s m' = Ok (mk 1 (col out') 3) -> forall x, In x out' -> In x out).
Proof.
  intros sorter s xs Hc Hs Hne.
  destruct (C71_monotone sorter s xs Hc Hs Hne) as (_ & a & b0 & b & Ha & _ & Hb & Hab & _ & Hi).
  exists a, b; split; [exact Ha|]; split; [exact Hb|].
  assert (F : forall m, @fences R r_num sorter s m = Ok ((a - m * (b - a))%R, (b + m * (b - a))%R)).
  { intros m; unfold fences; rewrite Ha, Hb; reflexivity. }
  assert (O : forall m x, (@n_ltb R r_num x (a - m * (b - a))%R || @n_ltb R r_num (b + m * (b - a))%R x)%bool = true <-> (x < a - m * (b - a) \/ b + m * (b - a) < x)%R).
  { intros m x; cbn [n_ltb r_num]; rewrite orb_true_iff; destruct (Rlt_bool_spec x (a - m * (b - a))); destruct (Rlt_bool_spec (b + m * (b - a)) x); intuition (try discriminate; try lra). }
  intros m; destruct (C72_mask_and_items R r_num sorter s xs m _ _ Hs (F m)) as (E1 & E2 & E3).
  set (out := fun x => @n_ltb R r_num x (a - m * (b - a))%R || @n_ltb R r_num (b + m * (b - a))%R x) in *.
  set (nin := fun x => @n_leb R r_num (a - m * (b - a))%R x && @n_leb R r_num x (b + m * (b - a))%R) in *.
  exists (filter out xs), (filter nin xs).
  assert (IO : forall x, In x (filter out xs) <-> In x xs /\ (x < a - m * (b - a) \/ b + m * (b - a) < x)%R).
  { intros x; rewrite filter_In; unfold out; rewrite O; reflexivity. }
  split; [exact E1|]; split; [exact E3|]; split; [|split; [exact IO|split; [|split]]].
  - apply filter_partition; intros x _; unfold out, nin; cbn [n_ltb n_leb r_num].
    destruct (Rlt_bool_spec x (a - m * (b - a))); destruct (Rle_bool_spec (a - m * (b - a)) x); try lra;
    destruct (Rlt_bool_spec (b + m * (b - a)) x); destruct (Rle_bool_spec x (b + m * (b - a))); try lra; reflexivity.
  - rewrite E2; do 3 f_equal; apply map_ext_in; intros x Hx; cbn [n_of_Z r_num].
    assert (Q : existsb (Req_bool x) (filter out xs) = out x).
    { apply eq_true_iff_eq; rewrite existsb_exists; split.
      - intros (y & Hy & E); destruct (Req_bool_spec x y); [subst y|discriminate]; apply filter_In in Hy; tauto.
      - intros E; exists x; split; [apply filter_In; auto|apply Req_bool_true; reflexivity]. }
    rewrite Q; reflexivity.
  - intros Hm; assert (Pm : (0 <= m * (b - a))%R) by (apply Rmult_le_pos; lra).
    split; rewrite IO; intros [_ H]; lra.
  - intros m' out' Hm H x Hx.
    destruct (C72_mask_and_items R r_num sorter s xs m' _ _ Hs (F m')) as (E' & _ & _).
    rewrite E' in H; injection H as H.
    assert (Q : out' = filter (fun x0 => @n_ltb R r_num x0 (a - m' * (b - a))%R || @n_ltb R r_num (b + m' * (b - a))%R x0) xs).
    { rewrite !concat_col in H; symmetry; assumption. }
    rewrite Q in Hx; apply filter_In in Hx; destruct Hx as [Hx Hox]; apply O in Hox; apply IO; split; [exact Hx|].
    assert (Pm : (m * (b - a) <= m' * (b - a))%R) by (apply Rmult_le_compat_r; lra); lra.
Qed.
Print Assumptions C72_exact.

(** doubles: a partition whenever the fences are no NaN *)
Theorem C72_partition_partial :
  forall (L : Libm) (sorter : Sorter) (s : Serie F64) xs m lo hi,
  repr s 1 (col xs) -> Forall not_nan xs -> @fences F64 (f64_num L) sorter s m = Ok (lo, hi) -> not_nan lo -> not_nan hi ->
  exists out nout, @outliers F64 (f64_num L) sorter s m = Ok (mk 1 (col out) 3) /\ @notOutliers F64 (f64_num L) sorter s m = Ok (mk 1 (col nout) 3) /\
    Permutation xs (out ++ nout).
Proof.
  intros L sorter s xs m lo hi Hs Hn F Nl Nh.
  destruct (C72_mask_and_items F64 (f64_num L) sorter s xs m lo hi Hs F) as (E1 & _ & E3).
  do 2 eexists; split; [exact E1|]; split; [exact E3|].
  apply filter_partition; intros x Hx; rewrite Forall_forall in Hn; specialize (Hn x Hx).
  cbn [n_ltb n_leb f64_num].
  destruct (Bltb x lo) eqn:A; destruct (Bleb lo x) eqn:B; destruct (Bltb hi x) eqn:C; destruct (Bleb x hi) eqn:D; try reflexivity; exfalso;
    repeat match goal with
           | H : Bltb ?u ?v = true |- _ => apply (Bltb_ext u v) in H; [|assumption|assumption]
           | H : Bleb ?u ?v = true |- _ => apply (Bleb_ext u v) in H; [|assumption|assumption]
           | H : Bltb ?u ?v = false |- _ => apply not_true_iff_false in H; rewrite (Bltb_ext u v) in H by assumption
           | H : Bleb ?u ?v = false |- _ => apply not_true_iff_false in H; rewrite (Bleb_ext u v) in H by assumption
           end; lra.
Qed.
Print Assumptions C72_partition_partial.

(** false for doubles in general: the fences of the Serie {inf} are NaN and the value is in neither part *)
Theorem C72_partition_refuted :
  exists (s : Serie F64) xs m, repr s 1 (col xs) /\ Forall not_nan xs /\ xs <> [] /\
  forall (sorter : Sorter), conforms sorter ->
    @outliers F64 F64N sorter s m = Ok (mk 1 [] 3) /\ @notOutliers F64 F64N sorter s m = Ok (mk 1 [] 3).
Proof.
  exists (mk 1 (col [f64_inf]) 3), [f64_inf], (#1); split; [repr_ex|]; split; [repeat constructor|]; split; [discriminate|].
  intros sorter Hc.
  assert (E : sorter F64 (@n_ltb F64 F64N) [f64_inf] = [f64_inf]).
  { destruct (Hc F64 (@n_ltb F64 F64N) [f64_inf] ltac:(reflexivity)) as [P _]; apply Permutation_length_1_inv in P; exact P. }
  assert (So : @sort_default F64 F64N sorter (mk 1 (col [f64_inf]) 3) = Ok (mk 1 (col [f64_inf]) 3)).
  { unfold sort_default; rewrite (@sort_scalar F64 F64N sorter _ [f64_inf]); [rewrite E; reflexivity|repr_ex|reflexivity|rewrite E; reflexivity]. }
  assert (Q : forall p q, p / q = p / q -> True) by auto; clear Q.
  assert (Q1 : @q25 F64 F64N sorter (mk 1 (col [f64_inf]) 3) = Ok f64_inf).
  { unfold q25, quantile; rewrite So; vm_compute; reflexivity. }
  assert (Q3 : @q75 F64 F64N sorter (mk 1 (col [f64_inf]) 3) = Ok f64_inf).
  { unfold q75, quantile; rewrite So; vm_compute; reflexivity. }
  unfold outliers, notOutliers, fences; rewrite Q1, Q3; cbn [obind].
  split; vm_compute; reflexivity.
Qed.
Print Assumptions C72_partition_refuted.

Example C72_ex : exists xs : list R, xs = [1; 2; 3; 100]%R /\ repr (mk 1 (col xs) 3) 1 (col xs) /\ conforms insertion_sorter.
Proof. eexists; split; [reflexivity|]; split; [repr_ex|exact insertion_sorter_conforms]. Qed.

Example C72_ex2 : let z : F64 := B754_zero false in
  repr (mk 1 (col [z]) 3) 1 (col [z]) /\ @fences F64 F64N insertion_sorter (mk 1 (col [z]) 3) (#1) = Ok (z, z) /\ not_nan z.
Proof. intros z; split; [repr_ex|split; [vm_compute; reflexivity|reflexivity]]. Qed.
