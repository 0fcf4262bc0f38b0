(** * C105: quantiles in binary64. *)
From Verif Require Import Base Num Serie Spec BaseFacts SerieFacts Functional Utils Mathf MathFacts MinMaxFacts Stats StatsFacts.
From Verif Require Import F64 F64Facts F64Arith F64Round OrderFacts Props_Functional Props_Sort Props_Quantile.
From Coq Require Import Permutation Sorted Reals Lra.
From Flocq Require Import Core IEEE754.BinarySingleNaN.
Open Scope Z_scope.
Opaque f64_of_Z.

Definition dflt : F64 := B754_zero false.
Definition fsorted (ss : list F64) : Prop := StronglySorted (fun x y => B2R x <= B2R y)%R ss.
(** no difference of two values overflows *)
Definition close (xs : list F64) : Prop := Forall (fun x => is_finite x = true) xs /\ forall x y, In x xs -> In y xs -> is_finite (f64_sub y x) = true.

Lemma fsorted_nth ss : fsorted ss -> forall i j, (i <= j < length ss)%nat -> (B2R (nth i ss dflt) <= B2R (nth j ss dflt))%R.
Proof.
  induction 1 as [|x ss Hs IH Hall]; intros i j Hij; simpl in Hij; [lia|].
  destruct i as [|i], j as [|j]; simpl; try lia; try lra.
  - rewrite Forall_forall in Hall; apply Hall, nth_In; lia.
  - apply IH; lia.
Qed.

Section Q.
  Variables (L : Libm) (sorter : Sorter).
  Hypothesis Hc : conforms sorter.
  Notation Q := (@quantile F64 (f64_num L) sorter).
  Variables (s : Serie F64) (xs : list F64).
  Hypothesis Hs : repr s 1 (col xs).
  Hypothesis Hne : xs <> [].
  Hypothesis Hcl : close xs.

  Let ss := sorter F64 (@n_ltb F64 (f64_num L)) xs.
  Lemma finite_good : Forall not_nan xs.
  Proof. eapply Forall_impl; [|exact (proj1 Hcl)]; intros x Hx; apply nan_finite; exact Hx. Qed.
  Lemma f64_swo : swo_on (@n_ltb F64 (f64_num L)) xs = true.
  Proof. apply (@keyed_swo F64 (f64_num L) _ _ (f64_ordered L)); exact finite_good. Qed.
  Lemma sorted_perm : Permutation xs ss.
  Proof. exact (proj1 (Hc F64 _ xs f64_swo)). Qed.
  Lemma sorted_ss : fsorted ss.
  Proof.
    pose proof (proj2 (Hc F64 _ xs f64_swo)) as So; fold ss in So.
    assert (F : Forall (fun x => is_finite x = true) ss).
    { apply Forall_forall; intros x Hx; apply (proj1 (Forall_forall _ _) (proj1 Hcl)); eapply Permutation_in; [symmetry; exact sorted_perm|exact Hx]. }
    unfold sorted_by in So; clear - So F; induction So as [|x l _ IH Ha]; [constructor|]; apply Forall_cons_iff in F as [Fx F]; constructor; [apply IH; exact F|].
    apply Forall_forall; intros y Hy; rewrite Forall_forall in Ha, F; specialize (Ha y Hy); specialize (F y Hy); cbn beta in Ha; cbn [n_ltb f64_num] in Ha.
    apply Rnot_lt_le; intros X; rewrite (proj2 (lt_ok y x F Fx) X) in Ha; discriminate Ha.
  Qed.
  Lemma ss_len : len ss = len xs.
  Proof. unfold len; f_equal; symmetry; apply Permutation_length, sorted_perm. Qed.
  Lemma ss_in i : (i < length ss)%nat -> In (nth i ss dflt) xs.
  Proof. intros H; eapply Permutation_in; [symmetry; exact sorted_perm|apply nth_In; exact H]. Qed.

  (** what quantile computes: the position, its floor, and the interpolation *)
  Variable q : F64.
  Hypothesis Fq : is_finite q = true.
  Hypothesis Hq : (0 <= B2R q <= 1)%R.
  Let pos := f64_mul (f64_of_Z (len xs - 1)) q.
  Let b := Zfloor (B2R pos).

  Lemma len_pos : 1 <= len xs < 4294967296.
  Proof. destruct (repr_col_len s xs Hs) as [_ Hb]; split; [|exact Hb]; destruct xs; [congruence|rewrite len_cons; pose proof (len_nonneg l); lia]. Qed.
  Lemma pos_ok : is_finite pos = true /\ B2R pos = rnd (IZR (len xs - 1) * B2R q) /\ (0 <= B2R pos <= IZR (len xs - 1))%R.
  Proof.
    pose proof len_pos; destruct (f64_of_Z_correct (len xs - 1) ltac:(lia)) as (A & F & _).
    assert (0 <= IZR (len xs - 1))%R by (apply IZR_le; lia).
    assert (R : (B2R #0 <= B2R (f64_of_Z (len xs - 1)) * B2R q <= B2R (f64_of_Z (len xs - 1)))%R) by (rewrite (proj1 zero_B2R), A; nra).
    destruct (mul_ok _ q F Fq (range_between _ _ _ R)) as [E Fm]; fold pos in E, Fm; split; [exact Fm|].
    pose proof (rnd_between _ _ _ R) as R'; rewrite <- E, (proj1 zero_B2R), A in R'; rewrite A in E; auto.
  Qed.
  Lemma b_ok : 0 <= b <= len xs - 1.
  Proof. apply floor_range, pos_ok. Qed.
  Let rest := f64_sub pos (Bnearbyint mode_DN pos).
  Lemma rest_ok : is_finite rest = true /\ B2R rest = (B2R pos - IZR b)%R /\ (0 <= B2R rest < 1)%R.
  Proof.
    destruct pos_ok as (F & _ & P0 & P1); destruct (floor_ok pos F) as [E Ff].
    pose proof (Zfloor_lb (B2R pos)) as Lb; pose proof (Zfloor_ub (B2R pos)) as Ub.
    assert (Fm : rnd (B2R pos - IZR b) = (B2R pos - IZR b)%R) by (apply rnd_fmt, frac_fmt; [apply fmt_B2R|exact P0]).
    destruct (sub_ok pos (Bnearbyint mode_DN pos) F Ff) as [S1 S2].
    - rewrite E; fold b; apply (range_between #0 #1); destruct (f64_of_Z_correct 1 ltac:(lia)) as (A1 & _); rewrite (proj1 zero_B2R), A1; fold b in Lb, Ub; lra.
    - rewrite E in S1; fold b in S1, Lb, Ub; rewrite Fm in S1; fold rest in S1, S2; repeat split; try assumption; rewrite S1; lra.
  Qed.

  Definition at_ (i : Z) : F64 := nth (Z.to_nat i) ss dflt.
  Lemma quantile_steps : Q s q = Ok (if b + 1 <? len xs then f64_add (at_ b) (f64_mul rest (f64_sub (at_ (b + 1)) (at_ b))) else at_ b).
  Proof.
    unfold quantile; rewrite (isValid_repr _ _ _ Hs), (repr_itemSize _ _ _ Hs); cbn [Z.ltb Z.compare negb Z.eqb Pos.eqb].
    cbn [n_ltb n_of_Z f64_num].
    destruct (f64_of_Z_correct 1 ltac:(lia)) as (A1 & F1 & _).
    assert (Q0 : Bltb q (f64_of_Z 0) = false) by (destruct (Bltb q (f64_of_Z 0)) eqn:X; [|reflexivity]; apply lt_ok in X; [|exact Fq|apply zero_B2R]; change (B2R (f64_of_Z 0)) with (B2R #0) in X; rewrite (proj1 zero_B2R) in X; lra).
    assert (Q1 : Bltb (f64_of_Z 1) q = false) by (destruct (Bltb (f64_of_Z 1) q) eqn:X; [|reflexivity]; apply lt_ok in X; [|exact F1|exact Fq]; rewrite A1 in X; lra).
    rewrite Q0, Q1; cbn [orb]; pose proof len_pos as Lp.
    unfold sort_default; rewrite (@sort_scalar F64 (f64_num L) sorter s xs lex_lt Hs f64_swo) by exact ss_len.
    fold ss; cbn [obind]; unfold asArray; cbn [mk s_]; rewrite concat_col, ss_len, u64_small by lia.
    cbn [n_mul n_floor n_sub n_add n_of_Z f64_num]; fold pos; fold rest.
    destruct pos_ok as (F & _ & P); destruct (floor_ok pos F) as [E Ff]; fold b in E; pose proof b_ok as Hb.
    unfold n_to_u32; cbn [n_to_Z f64_num].
    assert (Fadd : is_finite (f64_add (Bnearbyint mode_DN pos) (f64_of_Z 1)) = true /\ B2R (f64_add (Bnearbyint mode_DN pos) (f64_of_Z 1)) = IZR (b + 1)).
    { destruct (add_ok _ (f64_of_Z 1) Ff F1) as [G1 G2].
      - rewrite E, A1, <- plus_IZR; unfold in_range; rewrite rnd_int by lia; apply int_lt_emax; lia.
      - split; [exact G2|]; rewrite G1, E, A1, <- plus_IZR; apply rnd_int; lia. }
    destruct Fadd as [Fadd Eadd]; rewrite Fadd, Ff, (trunc_ok _ _ Eadd), (trunc_ok _ _ E).
    replace ((0 <=? b + 1) && (b + 1 <? two32)) with true by (symmetry; apply andb_true_intro; split; [apply Z.leb_le|apply Z.ltb_lt; unfold two32]; lia).
    replace ((0 <=? b) && (b <? two32)) with true by (symmetry; apply andb_true_intro; split; [apply Z.leb_le|apply Z.ltb_lt; unfold two32]; lia).
    pose proof ss_len as Ls.
    cbn [obind]; destruct (Z.ltb_spec (b + 1) (len xs)).
    - rewrite (rd_nth ss b dflt) by lia; cbn [obind]; rewrite (rd_nth ss (b + 1) dflt) by lia; reflexivity.
    - apply rd_nth; lia.
  Qed.
  Lemma at_in i : 0 <= i < len xs -> In (at_ i) xs.
  Proof. intros H; apply ss_in; pose proof ss_len; unfold len in *; lia. Qed.
  Lemma at_finite i : 0 <= i < len xs -> is_finite (at_ i) = true.
  Proof. intros H; apply (proj1 (Forall_forall _ _) (proj1 Hcl)), at_in; exact H. Qed.
  Lemma at_mono i j : 0 <= i <= j -> j < len xs -> (B2R (at_ i) <= B2R (at_ j))%R.
  Proof. intros H1 H2; apply fsorted_nth; [exact sorted_ss|]; pose proof ss_len; unfold len in *; lia. Qed.

  (** between the neighbours *)
  Lemma quantile_between : exists v, Q s q = Ok v /\ is_finite v = true /\ (B2R (at_ b) <= B2R v)%R /\
    (b + 1 < len xs -> (B2R v <= B2R (at_ (b + 1)))%R /\ v = lerp (at_ b) (at_ (b + 1)) rest) /\ (len xs <= b + 1 -> v = at_ b).
  Proof.
    rewrite quantile_steps; eexists; split; [reflexivity|]; pose proof b_ok as Hb; destruct (Z.ltb_spec (b + 1) (len xs)) as [H|H].
    - rewrite f64_add_comm; fold (lerp (at_ b) (at_ (b + 1)) rest).
      destruct rest_ok as (Fr & _ & Hr).
      destruct (lerp_within (at_ b) (at_ (b + 1))) with (c := rest) as [W1 W2]; try assumption; try (apply at_finite; lia); [apply (proj2 Hcl); apply at_in; lia|apply at_mono; lia|].
      split; [exact W1|]; split; [lra|]; split; [intros _; split; [lra|reflexivity]|lia].
    - split; [apply at_finite; lia|]; split; [lra|]; split; [lia|reflexivity].
  Qed.
End Q.

(** ** C105 *)
Lemma fsorted_unique (a b : list F64) : Permutation a b -> fsorted a -> fsorted b -> map B2R a = map B2R b.
Proof.
  intros P Sa Sb; apply sorted_eq; [apply Permutation_map; exact P| |].
  - clear - Sa; induction Sa as [|x l _ IH Ha]; [constructor|]; cbn [map]; constructor; [exact IH|]; apply Forall_map; exact Ha.
  - clear - Sb; induction Sb as [|x l _ IH Ha]; [constructor|]; cbn [map]; constructor; [exact IH|]; apply Forall_map; exact Ha.
Qed.
Lemma nth_map_B2R ss i : nth i (map B2R ss) 0%R = B2R (nth i ss dflt).
Proof. change 0%R with (B2R dflt); apply map_nth. Qed.

(** the quantile lies between the two values next to its position, hence between the smallest and the largest value *)
Theorem C105_between :
  forall (L : Libm) (sorter : Sorter) (s : Serie F64) xs ss q,
  conforms sorter -> repr s 1 (col xs) -> xs <> [] -> close xs -> Permutation xs ss -> fsorted ss ->
  is_finite q = true -> (0 <= B2R q <= 1)%R ->
  exists v (k : nat), @quantile F64 (f64_num L) sorter s q = Ok v /\ is_finite v = true /\ (k < length xs)%nat /\
    (INR k <= rnd (IZR (len xs - 1) * B2R q) < INR k + 1)%R /\
    (B2R (nth k ss dflt) <= B2R v)%R /\ ((S k < length xs)%nat -> (B2R v <= B2R (nth (S k) ss dflt))%R) /\
    (k = (length xs - 1)%nat -> B2R v = B2R (nth k ss dflt)) /\
    (forall lo hi, (forall x, In x xs -> (lo <= B2R x <= hi)%R) -> (lo <= B2R v <= hi)%R).
Proof.
  intros L sorter s xs ss q Hc Hs Hne Hcl P So Fq Hq.
  destruct (quantile_between L sorter Hc s xs Hs Hne Hcl q Fq Hq) as (v & E & F & Lo & Up & La).
  destruct (pos_ok L sorter s xs Hs Hne Hcl q Fq Hq) as (_ & Ep & _); pose proof (b_ok L sorter s xs Hs Hne Hcl q Fq Hq) as Hb.
  set (p := f64_mul (f64_of_Z (len xs - 1)) q) in *.
  pose proof (fsorted_unique _ _ (Permutation_trans (Permutation_sym P) (sorted_perm L sorter Hc xs Hcl)) So (sorted_ss L sorter Hc xs Hcl)) as U.
  assert (AT : forall i, B2R (at_ L sorter xs i) = B2R (nth (Z.to_nat i) ss dflt)) by (intros i; unfold at_; rewrite <- !nth_map_B2R, U; reflexivity).
  rewrite AT in Lo.
  exists v, (Z.to_nat (Zfloor (B2R p))); split; [exact E|]; split; [exact F|]; split; [unfold len in *; lia|]; split.
  { rewrite INR_IZR_INZ, Z2Nat.id by lia; rewrite <- Ep; pose proof (Zfloor_lb (B2R p)); pose proof (Zfloor_ub (B2R p)); lra. }
  split; [exact Lo|].
  assert (Up' : (S (Z.to_nat (Zfloor (B2R p))) < length xs)%nat -> (B2R v <= B2R (nth (S (Z.to_nat (Zfloor (B2R p)))) ss dflt))%R).
  { intros H; destruct Up as [Up _]; [unfold len in *; lia|]; rewrite AT in Up; replace (S (Z.to_nat (Zfloor (B2R p)))) with (Z.to_nat (Zfloor (B2R p) + 1)) by lia; exact Up. }
  assert (La' : Z.to_nat (Zfloor (B2R p)) = (length xs - 1)%nat -> B2R v = B2R (nth (Z.to_nat (Zfloor (B2R p))) ss dflt)).
  { intros H; rewrite La by (unfold len in *; lia); apply AT. }
  split; [exact Up'|]; split; [exact La'|].
  assert (Ls : length ss = length xs) by (symmetry; apply Permutation_length; exact P).
  assert (HI : forall j, (j < length xs)%nat -> In (nth j ss dflt) xs) by (intros j Hj; eapply Permutation_in; [symmetry; exact P|apply nth_In; lia]).
  intros lo hi H; set (k := Z.to_nat (Zfloor (B2R p))) in *.
  assert (Hk : (k < length xs)%nat) by (unfold len in *; lia).
  split; [eapply Rle_trans; [apply (H (nth k ss dflt)), HI; exact Hk|exact Lo]|].
  destruct (le_lt_dec (length xs) (S k)) as [X|X].
  - rewrite La' by lia; apply H, HI; lia.
  - eapply Rle_trans; [apply Up'; exact X|]; apply (H (nth (S k) ss dflt)), HI; exact X.
Qed.
Print Assumptions C105_between.

(** a larger q never gives a smaller quantile *)
Theorem C105_monotone :
  forall (L : Libm) (sorter : Sorter) (s : Serie F64) xs q1 q2,
  conforms sorter -> repr s 1 (col xs) -> xs <> [] -> close xs ->
  is_finite q1 = true -> is_finite q2 = true -> (0 <= B2R q1)%R -> (B2R q1 <= B2R q2)%R -> (B2R q2 <= 1)%R ->
  exists v1 v2, @quantile F64 (f64_num L) sorter s q1 = Ok v1 /\ @quantile F64 (f64_num L) sorter s q2 = Ok v2 /\ (B2R v1 <= B2R v2)%R.
Proof.
  intros L sorter s xs q1 q2 Hc Hs Hne Hcl F1 F2 H0 H1 H2.
  assert (Hq1 : (0 <= B2R q1 <= 1)%R) by lra; assert (Hq2 : (0 <= B2R q2 <= 1)%R) by lra.
  destruct (quantile_between L sorter Hc s xs Hs Hne Hcl q1 F1 Hq1) as (v1 & E1 & _ & Lo1 & Up1 & La1).
  destruct (quantile_between L sorter Hc s xs Hs Hne Hcl q2 F2 Hq2) as (v2 & E2 & _ & Lo2 & Up2 & La2).
  destruct (pos_ok L sorter s xs Hs Hne Hcl q1 F1 Hq1) as (G1 & P1 & R1); destruct (pos_ok L sorter s xs Hs Hne Hcl q2 F2 Hq2) as (G2 & P2 & R2).
  destruct (rest_ok L sorter s xs Hs Hne Hcl q1 F1 Hq1) as (S1 & T1 & U1); destruct (rest_ok L sorter s xs Hs Hne Hcl q2 F2 Hq2) as (S2 & T2 & U2).
  pose proof (b_ok L sorter s xs Hs Hne Hcl q1 F1 Hq1) as B1; pose proof (b_ok L sorter s xs Hs Hne Hcl q2 F2 Hq2) as B2.
  pose proof (len_pos L sorter s xs Hs Hne Hcl #0) as Lp; assert (0 <= IZR (len xs - 1))%R by (apply IZR_le; lia).
  set (p1 := f64_mul (f64_of_Z (len xs - 1)) q1) in *; set (p2 := f64_mul (f64_of_Z (len xs - 1)) q2) in *.
  assert (Hp : (B2R p1 <= B2R p2)%R) by (rewrite P1, P2; apply rnd_le, Rmult_le_compat_l; assumption).
  pose proof (Zfloor_le _ _ Hp) as Hf.
  exists v1, v2; split; [exact E1|]; split; [exact E2|].
  assert (AM : forall i j, 0 <= i <= j -> j < len xs -> (B2R (at_ L sorter xs i) <= B2R (at_ L sorter xs j))%R) by (intros i j A B; apply (at_mono L sorter Hc xs Hcl #0); assumption).
  destruct (Z.eq_dec (Zfloor (B2R p1)) (Zfloor (B2R p2))) as [E|N].
  - destruct (Z.lt_ge_cases (Zfloor (B2R p1) + 1) (len xs)) as [X|X].
    + destruct (Up1 X) as [_ ->]; destruct (Up2 ltac:(lia)) as [_ ->]; rewrite <- E in *.
      apply lerp_mono; try assumption; try lra; try (apply (at_finite L sorter Hc xs Hcl #0); lia).
      * apply (proj2 Hcl); apply (at_in L sorter Hc xs Hcl #0); lia.
      * apply AM; lia.
    + rewrite (La1 X), (La2 ltac:(lia)), E; lra.
  - eapply Rle_trans; [apply Up1; lia|]; eapply Rle_trans; [|exact Lo2]; apply AM; lia.
Qed.
Print Assumptions C105_monotone.

(** q = 0 gives the smallest, q = 1 the largest value *)
Theorem C105_extremes :
  forall (L : Libm) (sorter : Sorter) (s : Serie F64) xs,
  conforms sorter -> repr s 1 (col xs) -> xs <> [] -> close xs ->
  (exists m x, @quantile F64 (f64_num L) sorter s #0 = Ok m /\ In x xs /\ B2R m = B2R x /\ forall y, In y xs -> (B2R m <= B2R y)%R) /\
  (exists m, @quantile F64 (f64_num L) sorter s #1 = Ok m /\ In m xs /\ forall y, In y xs -> (B2R y <= B2R m)%R).
Proof.
  intros L sorter s xs Hc Hs Hne Hcl; pose proof (len_pos L sorter s xs Hs Hne Hcl #0) as Lp.
  destruct (f64_of_Z_correct 1 ltac:(lia)) as (A1 & F1 & _); destruct zero_B2R as [A0 F0].
  assert (HX : forall x, In x xs -> exists j, 0 <= j < len xs /\ x = at_ L sorter xs j).
  { intros x Hx; eapply Permutation_in in Hx; [|exact (sorted_perm L sorter Hc xs Hcl)]; apply In_nth with (d := dflt) in Hx; destruct Hx as (j & Hj & <-).
    exists (Z.of_nat j); split; [pose proof (ss_len L sorter Hc xs Hcl); unfold len in *; lia|unfold at_; rewrite Nat2Z.id; reflexivity]. }
  assert (AM : forall i j, 0 <= i <= j -> j < len xs -> (B2R (at_ L sorter xs i) <= B2R (at_ L sorter xs j))%R) by (intros i j A B; apply (at_mono L sorter Hc xs Hcl #0); assumption).
  split.
  - assert (Hq : (0 <= B2R #0 <= 1)%R) by lra.
    destruct (quantile_between L sorter Hc s xs Hs Hne Hcl #0 F0 Hq) as (v & E & _ & Lo & Up & La).
    destruct (pos_ok L sorter s xs Hs Hne Hcl #0 F0 Hq) as (G & P & _); destruct (rest_ok L sorter s xs Hs Hne Hcl #0 F0 Hq) as (S1 & T & U).
    set (p := f64_mul (f64_of_Z (len xs - 1)) #0) in *; rewrite A0, Rmult_0_r, rnd_0 in P; rewrite P in *; rewrite (Zfloor_IZR 0) in *.
    assert (Ev : B2R v = B2R (at_ L sorter xs 0)).
    { destruct (Z.lt_ge_cases (0 + 1) (len xs)) as [X|X]; [|rewrite (La X); reflexivity].
      destruct (Up X) as [_ ->]; apply lerp_0; try assumption; try (apply (at_finite L sorter Hc xs Hcl #0); lia); [apply (proj2 Hcl); apply (at_in L sorter Hc xs Hcl #0); lia|apply AM; lia|rewrite T; lra]. }
    exists v, (at_ L sorter xs 0); split; [exact E|]; split; [apply (at_in L sorter Hc xs Hcl #0); lia|]; split; [exact Ev|].
    intros y Hy; destruct (HX y Hy) as (j & Hj & ->); rewrite Ev; apply AM; lia.
  - assert (Hq : (0 <= B2R #1 <= 1)%R) by lra.
    destruct (quantile_between L sorter Hc s xs Hs Hne Hcl #1 F1 Hq) as (v & E & _ & Lo & Up & La).
    destruct (pos_ok L sorter s xs Hs Hne Hcl #1 F1 Hq) as (G & P & _).
    set (p := f64_mul (f64_of_Z (len xs - 1)) #1) in *; rewrite A1, Rmult_1_r, rnd_int in P by lia; rewrite P in *; rewrite (Zfloor_IZR (len xs - 1)) in *.
    rewrite (La ltac:(lia)) in *; exists (at_ L sorter xs (len xs - 1)); split; [exact E|]; split; [apply (at_in L sorter Hc xs Hcl #0); lia|].
    intros y Hy; destruct (HX y Hy) as (j & Hj & ->); apply AM; lia.
Qed.
Print Assumptions C105_extremes.

(** the full claim, for all finite values, is false: the smallest of two far values is reported as NaN *)
Definition big : F64 := f64_mul (f64_of_Z (2 ^ 53 - 1)) (f64_of_Z (2 ^ 971)).
Theorem C105_refuted :
  exists (s : Serie F64) xs, repr s 1 (col xs) /\ Forall (fun x => is_finite x = true) xs /\ xs <> [] /\
  exists v, @quantile F64 F64N insertion_sorter s #0 = Ok v /\ is_nan v = true.
Proof.
  exists (mk 1 (col [Bopp big; big]) 3), [Bopp big; big]; split; [repr_ex|]; split; [repeat constructor; vm_compute; reflexivity|]; split; [discriminate|].
  eexists; split; [vm_compute; reflexivity|reflexivity].
Qed.
Print Assumptions C105_refuted.

Lemma small_finite n : (Z.abs n <= 9)%Z -> is_finite #n = true.
Proof. intros H; apply (f64_of_Z_correct n); lia. Qed.
Lemma small_sub m n : (Z.abs m <= 9)%Z -> (Z.abs n <= 9)%Z -> is_finite (f64_sub #m #n) = true.
Proof.
  intros Hm Hn; destruct (f64_of_Z_correct m ltac:(lia)) as (A & F & _), (f64_of_Z_correct n ltac:(lia)) as (B & G & _).
  apply sub_ok; [exact F|exact G|]; rewrite A, B, <- minus_IZR; unfold in_range; rewrite rnd_int by lia; apply int_lt_emax; lia.
Qed.
Example C105_example : let xs := [#3; #1; #2] in
  conforms insertion_sorter /\ repr (mk 1 (col xs) 3) 1 (col xs) /\ close xs /\ Permutation xs [#1; #2; #3] /\ fsorted [#1; #2; #3] /\
  match @quantile F64 F64N insertion_sorter (mk 1 (col xs) 3) (f64_div #1 #4) with Ok v => Beqb v (f64_div #3 #2) | _ => false end = true.
Proof.
  destruct (f64_of_Z_correct 1 ltac:(lia)) as (A1 & _); destruct (f64_of_Z_correct 2 ltac:(lia)) as (A2 & _); destruct (f64_of_Z_correct 3 ltac:(lia)) as (A3 & _).
  intros xs; split; [exact insertion_sorter_conforms|]; split; [repr_ex|]; split; [split|split; [|split]].
  - repeat first [apply Forall_cons | apply Forall_nil]; apply small_finite; lia.
  - intros x y Hx Hy; destruct Hx as [<-|[<-|[<-|[]]]]; destruct Hy as [<-|[<-|[<-|[]]]]; apply small_sub; lia.
  - apply perm_trans with [#1; #3; #2]; [apply perm_swap|apply perm_skip, perm_swap].
  - repeat first [apply SSorted_cons | apply SSorted_nil | apply Forall_cons | apply Forall_nil]; rewrite ?A1, ?A2, ?A3; apply IZR_le; lia.
  - vm_compute; reflexivity.
Qed.
