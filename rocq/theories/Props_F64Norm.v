(** * C119: vector normalize in binary64. *)
From Verif Require Import Base Num Serie Spec BaseFacts SerieFacts Functional FunctionalFacts Utils Mathf MathFacts MinMaxFacts.
From Verif Require Import F64 F64Facts F64Arith F64Round F64Sum Props_Functional Props_MultDiv Props_F64Int.
From Flocq Require Import Core IEEE754.BinarySingleNaN Relative.
From Coq Require Import Reals Lra Psatz.
Open Scope R_scope.
Opaque f64_of_Z.

Notation fexp64 := (SpecFloat.fexp 53 1024).
(** ** the root of the rounded square is not below the number *)
Lemma root_of_square x : fmt x -> bpow radix2 (-511) <= x -> x <= rnd (sqrt (rnd (x * x))).
Proof.
  intros Fx Hx; pose proof (bpow_gt_0 radix2 (-511)) as P0.
  assert (X0 : 0 < x) by lra.
  apply round_N_ge_midp; [exact fexp_valid|exact Fx|].
  assert (Px : pred radix2 fexp64 x < x) by (apply pred_lt_id; lra).
  assert (P1 : 0 <= pred radix2 fexp64 x) by (apply pred_ge_0; [exact fexp_valid|exact X0|exact Fx]).
  set (m := (x + pred radix2 fexp64 x) / 2).
  assert (M : 0 < m < x) by (unfold m; lra).
  rewrite <- (sqrt_square m) by lra; apply sqrt_lt_1_alt; split; [nra|].
  destruct (mag radix2 x) as [e He0]; pose proof (He0 ltac:(lra)) as He; clear He0; rewrite Rabs_pos_eq in He by lra.
  assert (Me : mag radix2 x = e :> Z) by (apply mag_unique; rewrite Rabs_pos_eq by lra; exact He).
  assert (Le : (-510 <= e)%Z).
  { assert (L : bpow radix2 (-511) < bpow radix2 e) by lra; apply lt_bpow in L; lia. }
  destruct (Req_dec x (bpow radix2 (e - 1))) as [E|N].
  - rewrite (rnd_fmt (x * x)); [nra|].
    rewrite E, <- bpow_plus; apply generic_format_bpow; unfold SpecFloat.fexp, SpecFloat.emin; lia.
  - set (h := bpow radix2 (e - 53)); pose proof (bpow_gt_0 radix2 (e - 53)) as Hh; fold h in Hh.
    assert (B53 : bpow radix2 e = 2 * bpow radix2 (e - 1)) by (replace e with (1 + (e - 1))%Z at 1 by lia; rewrite bpow_plus; reflexivity).
    assert (Fe : fmt (bpow radix2 (e - 1))) by (apply generic_format_bpow; unfold SpecFloat.fexp, SpecFloat.emin; lia).
    assert (U : ulp radix2 fexp64 x = h).
    { rewrite ulp_neq_0 by lra; unfold cexp; rewrite Me; unfold h; f_equal; unfold SpecFloat.fexp, SpecFloat.emin; lia. }
    assert (Pe : pred radix2 fexp64 x = x - h).
    { rewrite pred_eq_pos by lra; unfold pred_pos; rewrite Me, Req_bool_false by exact N; rewrite U; reflexivity. }
    assert (S : bpow radix2 (e - 1) + h <= x).
    { assert (Q : succ radix2 fexp64 (bpow radix2 (e - 1)) <= x) by (apply succ_le_lt; [exact fexp_valid|exact Fe|exact Fx|lra]).
      rewrite succ_eq_pos in Q by apply bpow_ge_0.
      rewrite ulp_bpow in Q; replace (fexp64 (e - 1 + 1)) with (e - 53)%Z in Q by (unfold SpecFloat.fexp, SpecFloat.emin; lia); exact Q. }
    pose proof (error_le_half_ulp radix2 fexp64 (fun x => negb (Z.even x)) (x * x)) as Er; apply Rabs_le_inv in Er.
    assert (U2 : ulp radix2 fexp64 (x * x) <= bpow radix2 (2 * e - 53)).
    { rewrite ulp_neq_0 by nra; apply bpow_le; unfold cexp.
      assert (mag radix2 (x * x) <= 2 * e)%Z.
      { apply mag_le_bpow; [nra|]; rewrite Rabs_pos_eq by nra; replace (2 * e)%Z with (e + e)%Z by lia; rewrite bpow_plus; nra. }
      unfold SpecFloat.fexp, SpecFloat.emin; lia. }
    assert (B2 : bpow radix2 (2 * e - 53) = h * bpow radix2 e) by (unfold h; rewrite <- bpow_plus; f_equal; lia).
    unfold m; rewrite Pe; nra.
Qed.

Lemma bpow_quarter : bpow radix2 (-2) = 1 / 4.
Proof. change (bpow radix2 (-2)) with (/ 4); lra. Qed.
Lemma bpow_m10 : bpow radix2 (-10) = 1 / 1024.
Proof. change (bpow radix2 (-10)) with (/ 1024); lra. Qed.
(** ** the sum of the squares is not below any of them *)
Lemma squares_above item : forall acc : F64, 0 <= B2R acc -> is_finite (fold_left (fun a v => f64_add a (f64_mul v v)) item acc) = true ->
  is_finite acc = true /\ B2R acc <= B2R (fold_left (fun a v => f64_add a (f64_mul v v)) item acc) /\
  forall x, In x item -> is_finite x = true /\ rnd (B2R x * B2R x) <= B2R (fold_left (fun a v => f64_add a (f64_mul v v)) item acc).
Proof.
  induction item as [|x item IH]; intros acc A0 F; cbn [fold_left] in *; [split; [exact F|split; [lra|intros ? []]]|].
  set (acc' := f64_add acc (f64_mul x x)) in *.
  assert (Fs : forall l (a : F64), is_finite (fold_left (fun a v => f64_add a (f64_mul v v)) l a) = true -> is_finite a = true).
  { clear; induction l as [|y l IH]; intros a H; [exact H|]; cbn [fold_left] in H; apply IH in H; apply (add_inv _ _ H). }
  assert (Fa' : is_finite acc' = true) by (apply (Fs item); exact F).
  destruct (add_inv _ _ Fa') as [Fa Fm]; destruct (mul_inv _ _ Fm) as [Fx _].
  destruct (mul_ok x x Fx Fx (mul_finite x x Fm)) as [Em _].
  assert (M0 : 0 <= B2R (f64_mul x x)) by (rewrite Em, <- rnd_0; apply rnd_le; nra).
  destruct (add_ok _ _ Fa Fm (add_finite _ _ Fa Fm Fa')) as [Ea _]; fold acc' in Ea.
  assert (A1 : B2R acc <= B2R acc') by (rewrite Ea, <- (rnd_B2R acc) at 1; apply rnd_le; lra).
  assert (A2 : B2R (f64_mul x x) <= B2R acc') by (rewrite Ea, <- (rnd_B2R (f64_mul x x)) at 1; apply rnd_le; lra).
  destruct (IH acc' ltac:(lra) F) as (_ & I1 & I2).
  split; [exact Fa|split; [lra|]]; intros y [<-|Hy]; [split; [exact Fx|rewrite <- Em; lra]|apply I2; exact Hy].
Qed.

Definition length_of (item : list F64) : F64 := f64_sqrt (fold_left (fun a v => f64_add a (f64_mul v v)) item #0).
Definition unit_of (item : list F64) : list F64 := map (fun v => f64_mul v (f64_div #1 (length_of item))) item.

Lemma sqrt_finite (x : F64) : is_finite x = true -> 0 <= B2R x -> is_finite (f64_sqrt x) = true /\ B2R (f64_sqrt x) = rnd (sqrt (B2R x)).
Proof.
  intros F H; destruct (Bsqrt_correct 53 1024 F64_prec F64_emax mode_NE x) as (E & Fq & _); unfold f64_sqrt; rewrite Fq, E; split; [|reflexivity].
  destruct x as [s|s| |[|] m e Hb]; try discriminate; try reflexivity.
  exfalso; cbn [B2R] in H; assert (F2R (Float radix2 (cond_Zopp true (Zpos m)) e) < 0) by (apply F2R_lt_0; reflexivity); lra.
Qed.

Section Item.
  Variable item : list F64.
  Variable c : F64.
  Hypothesis Hfin : is_finite (fold_left (fun a v => f64_add a (f64_mul v v)) item #0) = true.
  Hypothesis Hc : In c item.
  Hypothesis Big : bpow radix2 (-511) <= Rabs (B2R c).

  Lemma length_above : is_finite (length_of item) = true /\ bpow radix2 (-511) <= B2R (length_of item) <= bpow radix2 512 /\
    forall x, In x item -> is_finite x = true /\ Rabs (B2R x) <= B2R (length_of item).
  Proof.
    unfold length_of; set (S := fold_left _ item #0) in *.
    destruct (squares_above item #0 ltac:(rewrite (proj1 zero_B2R); lra) Hfin) as (_ & S0 & Sx); fold S in S0, Sx; rewrite (proj1 zero_B2R) in S0.
    destruct (sqrt_finite S Hfin S0) as [Fq Eq]; split; [exact Fq|].
    assert (Up : forall x, In x item -> bpow radix2 (-511) <= Rabs (B2R x) -> Rabs (B2R x) <= B2R (f64_sqrt S)).
    { intros x Hx Bx; destruct (Sx x Hx) as [_ Lx]; rewrite Eq.
      eapply Rle_trans; [apply (root_of_square (Rabs (B2R x))); [apply generic_format_abs, fmt_B2R|exact Bx]|].
      apply rnd_le, sqrt_le_1_alt; rewrite <- Rabs_mult, Rabs_pos_eq by nra; exact Lx. }
    pose proof (Up c Hc Big) as Uc; split; [split; [lra|]|].
    - rewrite Eq; apply Rle_trans with (rnd (bpow radix2 512)); [apply rnd_le|rewrite rnd_fmt; [lra|apply generic_format_bpow; unfold SpecFloat.fexp, SpecFloat.emin; lia]].
      replace (bpow radix2 512) with (sqrt (bpow radix2 1024)).
      + apply sqrt_le_1_alt; pose proof (B2R_lt_emax S) as L; apply Rabs_lt_inv in L; lra.
      + change 1024%Z with (512 + 512)%Z; rewrite bpow_plus; apply sqrt_square, bpow_ge_0.
    - intros x Hx; split; [apply Sx; exact Hx|]; destruct (Rle_or_lt (bpow radix2 (-511)) (Rabs (B2R x))); [apply Up; assumption|lra].
  Qed.

  Lemma unit_within y : In y (unit_of item) -> is_finite y = true /\ -1 <= B2R y <= 1.
  Proof.
    destruct length_above as (Fn & Bn & Hx); set (n := length_of item) in *.
    intros Hy; unfold unit_of in Hy; apply in_map_iff in Hy; destruct Hy as (x & <- & Ix); destruct (Hx x Ix) as [Fx Lx]; fold n.
    destruct (f64_of_Z_correct 1 ltac:(lia)) as (E1 & F1 & _).
    pose proof (bpow_gt_0 radix2 (-511)) as P0.
    assert (N0 : B2R n <> 0) by lra.
    assert (In1 : bpow radix2 (-512) <= / B2R n <= bpow radix2 511).
    { split; [change (-512)%Z with (- (512))%Z|change 511%Z with (- (-511))%Z]; rewrite bpow_opp; apply Rinv_le_contravar; lra. }
    assert (Rg : Rabs (rnd (B2R #1 / B2R n)) <= bpow radix2 511).
    { rewrite E1; unfold Rdiv; rewrite Rmult_1_l; apply abs_round_le_generic; [exact fexp_valid|apply valid_rnd_N|apply generic_format_bpow; unfold SpecFloat.fexp, SpecFloat.emin; lia|].
      rewrite Rabs_pos_eq by (pose proof (bpow_gt_0 radix2 (-512)); lra); lra. }
    destruct (div_ok #1 n F1 N0) as [Ed Fd].
    { unfold in_range; apply Rle_lt_trans with (1 := Rg), bpow_lt; lia. }
    rewrite E1 in Ed; unfold Rdiv in Ed; rewrite Rmult_1_l in Ed.
    set (l := f64_div #1 n) in *.
    destruct (relative_error_N_FLT'_ex radix2 (SpecFloat.emin 53 1024) 53 ltac:(lia) (fun x => negb (Z.even x)) (/ B2R n)) as (e & t & Be & Bt & Zt & El).
    change (round radix2 (FLT_exp (SpecFloat.emin 53 1024) 53) (Znearest (fun x => negb (Z.even x))) (/ B2R n)) with (rnd (/ B2R n)) in El.
    rewrite <- Ed in El; unfold u_ro in Be; rewrite half_ulp in Be; rewrite half_eta in Bt.
    pose proof uu_pos as U; pose proof eta_pos as T.
    assert (Be' : Rabs e < uu).
    { eapply Rle_lt_trans; [exact Be|]; apply (Rmult_lt_reg_r (1 + uu)); [lra|]; unfold Rdiv; rewrite Rmult_assoc, Rinv_l by lra; nra. }
    assert (Hp : Rabs (B2R x * B2R l) < 1 + uu).
    { rewrite Rabs_mult; destruct (Req_dec t 0) as [->|Nt].
      - rewrite El, Rplus_0_r, Rabs_mult, (Rabs_pos_eq (/ B2R n)) by (apply Rlt_le, Rinv_0_lt_compat; lra).
        assert (Q : Rabs (B2R x) * / B2R n <= 1).
        { apply (Rmult_le_reg_r (B2R n)); [lra|]; rewrite Rmult_assoc, Rinv_l by exact N0; lra. }
        assert (Q0 : 0 <= Rabs (B2R x) * / B2R n) by (apply Rmult_le_pos; [apply Rabs_pos|apply Rlt_le, Rinv_0_lt_compat; lra]).
        rewrite <- Rmult_assoc; pose proof (Rabs_triang 1 e) as Tr; rewrite (Rabs_pos_eq 1) in Tr by lra.
        apply Rle_lt_trans with (1 * Rabs (1 + e)); [apply Rmult_le_compat_r; [apply Rabs_pos|exact Q]|lra].
      - assert (e = 0) as -> by (destruct (Rmult_integral _ _ Zt); [assumption|contradiction]).
        rewrite El, Rplus_0_r, Rmult_1_r.
        assert (Q : Rabs (B2R x) * / B2R n <= 1).
        { apply (Rmult_le_reg_r (B2R n)); [lra|]; rewrite Rmult_assoc, Rinv_l by exact N0; lra. }
        apply Rle_lt_trans with (Rabs (B2R x) * (/ B2R n + eta)).
        + apply Rmult_le_compat_l; [apply Rabs_pos|]; eapply Rle_trans; [apply Rabs_triang|].
          rewrite (Rabs_pos_eq (/ B2R n)) by (apply Rlt_le, Rinv_0_lt_compat; lra); lra.
        + rewrite Rmult_plus_distr_l; assert (Rabs (B2R x) * eta < uu); [|lra].
          apply Rle_lt_trans with (bpow radix2 512 * eta); [apply Rmult_le_compat_r; lra|].
          unfold eta, uu; rewrite <- bpow_plus; apply bpow_lt; lia. }
    assert (F1' : fmt 1) by (change 1 with (bpow radix2 0); apply generic_format_bpow; unfold SpecFloat.fexp, SpecFloat.emin; lia).
    assert (R1 : forall r, Rabs r < 1 + uu -> Rabs (rnd r) <= 1).
    { assert (Pos : forall r, r < 1 + uu -> rnd r <= 1).
      { intros r Hr; apply round_N_le_midp; [exact fexp_valid|exact F1'|].
        rewrite succ_eq_pos by lra; change 1 with (bpow radix2 0) at 3; rewrite ulp_bpow.
        change (fexp64 (0 + 1)) with (-52)%Z; change (-52)%Z with (1 + -53)%Z; rewrite bpow_plus; change (bpow radix2 1) with 2; fold uu; lra. }
      intros r Hr; apply Rabs_lt_inv in Hr; apply Rabs_le; split; [|apply Pos; lra].
      pose proof (Pos (- r) ltac:(lra)) as Q; rewrite rnd_opp in Q; lra. }
    specialize (R1 _ Hp).
    destruct (mul_ok x l Fx Fd) as [Em Fm].
    { unfold in_range; apply Rle_lt_trans with (1 := R1); change 1 with (bpow radix2 0); apply bpow_lt; lia. }
    split; [exact Fm|]; rewrite Em; apply Rabs_le_inv; exact R1.
  Qed.

  Definition sumsq (l : list F64) : R := fold_right Rplus 0 (map (fun x => B2R x * B2R x) l).
  Lemma sumsq_nonneg l : 0 <= sumsq l.
  Proof. unfold sumsq; induction l as [|x l IH]; cbn [map fold_right]; [lra|]; pose proof (Rle_0_sqr (B2R x)) as Q; unfold Rsqr in Q; lra. Qed.
  Lemma sumsq_in x l : In x l -> B2R x * B2R x <= sumsq l.
  Proof.
    induction l as [|y l IH]; intros H; [destruct H|]; destruct H as [->|H]; unfold sumsq in *; cbn [map fold_right].
    - pose proof (sumsq_nonneg l); unfold sumsq in *; lra.
    - specialize (IH H); pose proof (Rle_0_sqr (B2R y)) as Q; unfold Rsqr in Q; lra.
  Qed.
  Lemma pow_le_lin m : INR m * uu <= 1 / 2 -> (1 + uu) ^ m <= 1 + 2 * INR m * uu.
  Proof.
    pose proof uu_pos as U; induction m as [|m IH]; intros H; [cbn; lra|]; rewrite S_INR in *; cbn [pow].
    assert (Hm : INR m * uu <= 1 / 2) by lra; specialize (IH Hm); pose proof (pos_INR m).
    apply Rle_trans with ((1 + uu) * (1 + 2 * INR m * uu)); [apply Rmult_le_compat_l; lra|nra].
  Qed.
  Lemma fold_squares l : forall acc, fold_left (fun a v => f64_add a (f64_mul v v)) l acc = fold_left f64_add (map2 f64_mul l l) acc.
  Proof. induction l as [|x l IH]; intros acc; cbn [map2 fold_left]; [reflexivity|apply IH]. Qed.
  Lemma rel_err r : bpow radix2 (-1022) <= Rabs r -> exists e, Rabs e <= uu /\ rnd r = r * (1 + e).
  Proof.
    intros H; destruct (relative_error_N_FLT_ex radix2 (SpecFloat.emin 53 1024) 53 ltac:(lia) (fun x => negb (Z.even x)) r H) as (e & Be & E).
    rewrite half_ulp in Be; exists e; split; [exact Be|exact E].
  Qed.

  Hypothesis Hk : INR (length item) <= bpow radix2 31.
  Lemma squares_near : Rabs (B2R (fold_left (fun a v => f64_add a (f64_mul v v)) item #0) - sumsq item) <= (4 * INR (length item) + 2) * uu * sumsq item.
  Proof.
    rewrite fold_squares in *; destruct (sum_prod_err item item eq_refl Hfin) as (_ & _ & B).
    assert (E1 : fold_right Rplus 0 (map2 (fun x y => B2R x * B2R y) item item) = sumsq item) by (unfold sumsq; clear; induction item as [|x l IH]; cbn [map2 map fold_right]; [reflexivity|f_equal; exact IH]).
    assert (E2 : fold_right Rplus 0 (map2 (fun x y => Rabs (B2R x * B2R y)) item item) = sumsq item).
    { unfold sumsq; clear; induction item as [|x l IH]; cbn [map2 map fold_right]; [reflexivity|f_equal; [apply Rabs_pos_eq; pose proof (Rle_0_sqr (B2R x)) as Q; exact Q|exact IH]]. }
    rewrite E1, E2 in B; eapply Rle_trans; [exact B|].
    pose proof uu_pos as U; pose proof eta_pos as T; pose proof (pos_INR (length item)) as K0.
    assert (KU : INR (length item) * uu <= bpow radix2 (-22)) by (apply Rle_trans with (bpow radix2 31 * uu); [apply Rmult_le_compat_r; lra|unfold uu; rewrite <- bpow_plus; apply bpow_le; lia]).
    assert (K1 : bpow radix2 (-22) <= 1 / 4) by (rewrite <- bpow_quarter; apply bpow_le; lia).
    assert (U1 : uu <= 1 / 4) by (rewrite <- bpow_quarter; unfold uu; apply bpow_le; lia).
    pose proof (pow_le_lin (length item) ltac:(lra)) as P1; pose proof (pow_le_lin (S (length item)) ltac:(rewrite S_INR; lra)) as P2; rewrite S_INR in P2.
    assert (N1 : bpow radix2 (-1022) <= sumsq item).
    { eapply Rle_trans; [|apply (sumsq_in c item Hc)]; change (-1022)%Z with (-511 + -511)%Z; rewrite bpow_plus.
      rewrite <- (Rabs_pos_eq (B2R c * B2R c)) by (pose proof (Rle_0_sqr (B2R c)) as Q; exact Q); rewrite Rabs_mult; apply Rmult_le_compat; auto using bpow_ge_0. }
    assert (Et : eta <= uu * sumsq item).
    { apply Rle_trans with (uu * bpow radix2 (-1022)); [unfold eta, uu; rewrite <- bpow_plus; apply bpow_le; lia|apply Rmult_le_compat_l; lra]. }
    unfold growth; set (k := INR (length item)) in *; set (N := sumsq item) in *; pose proof (sumsq_nonneg item) as N0; fold N in N0.
    assert (A1 : ((1 + uu) ^ S (length item) - 1) * N <= 2 * (k + 1) * uu * N) by (apply Rmult_le_compat_r; lra).
    assert (A2 : (1 + uu) ^ length item * (k * eta) <= 2 * (k * (uu * N))).
    { apply Rmult_le_compat; [apply Rlt_le, pow_lt; lra|apply Rmult_le_pos; lra|lra|apply Rmult_le_compat_l; lra]. }
    lra.
  Qed.
  Lemma scaled_squares (l : F64) items : is_finite l = true -> (forall x, In x items -> is_finite (f64_mul x l) = true /\ Rabs (B2R x * B2R l) <= 2) ->
    Rabs (sumsq (map (fun x => f64_mul x l) items) - B2R l * B2R l * sumsq items) <= 3 * uu * (B2R l * B2R l * sumsq items) + INR (length items) * (9 * eta).
  Proof.
    intros Fl; induction items as [|x items IH]; intros Hx; unfold sumsq in *; cbn [map fold_right length].
    - cbn [INR]; rewrite !Rmult_0_r, Rminus_0_r, Rabs_R0; lra.
    - specialize (IH (fun y Hy => Hx y (or_intror Hy))); destruct (Hx x (or_introl eq_refl)) as [Fm Bx].
      destruct (mul_err x l Fm) as (e & h & Be & Bh & E); rewrite S_INR, E.
      set (s := fold_right Rplus 0 (map (fun x0 => B2R x0 * B2R x0) items)) in *; set (s' := fold_right Rplus 0 (map _ (map _ items))) in *.
      set (p := B2R x * B2R l) in *; set (L := B2R l) in *.
      replace ((p * (1 + e) + h) * (p * (1 + e) + h) + s' - L * L * (B2R x * B2R x + s)) with
        ((p * p * (2 * e + e * e) + (2 * p * (1 + e) * h + h * h)) + (s' - L * L * s)) by (unfold p; ring).
      replace (L * L * (B2R x * B2R x + s)) with (p * p + L * L * s) by (unfold p; ring).
      eapply Rle_trans; [apply Rabs_triang|].
      pose proof uu_pos as U; pose proof eta_pos as T.
      assert (U1 : uu <= 1 / 4) by (rewrite <- bpow_quarter; unfold uu; apply bpow_le; lia).
      assert (T1 : eta <= 1 / 4) by (rewrite <- bpow_quarter; unfold eta; apply bpow_le; lia).
      assert (X1 : Rabs (p * p * (2 * e + e * e)) <= 3 * uu * (p * p)).
      { rewrite Rabs_mult, (Rabs_pos_eq (p * p)) by (pose proof (Rle_0_sqr p) as Q; exact Q); rewrite Rmult_comm; apply Rmult_le_compat_r; [pose proof (Rle_0_sqr p) as Q; exact Q|].
        apply Rabs_le; apply Rabs_le_inv in Be; split; nra. }
      assert (X2 : Rabs (2 * p * (1 + e) * h + h * h) <= 9 * eta).
      { eapply Rle_trans; [apply Rabs_triang|]; rewrite !Rabs_mult, (Rabs_pos_eq 2) by lra.
        assert (E1 : Rabs (1 + e) <= 5 / 4) by (apply Rabs_le; apply Rabs_le_inv in Be; lra).
        pose proof (Rabs_pos p); pose proof (Rabs_pos (1 + e)); pose proof (Rabs_pos h).
        assert (Y1 : Rabs p * Rabs (1 + e) <= 2 * (5 / 4)) by (apply Rmult_le_compat; lra).
        assert (Y2 : 0 <= Rabs p * Rabs (1 + e)) by (apply Rmult_le_pos; lra).
        assert (Y3 : (Rabs p * Rabs (1 + e)) * Rabs h <= 2 * (5 / 4) * eta) by (apply Rmult_le_compat; lra).
        assert (Y4 : Rabs h * Rabs h <= 1 / 4 * eta) by (apply Rmult_le_compat; lra).
        lra. }
      pose proof (Rabs_triang (p * p * (2 * e + e * e)) (2 * p * (1 + e) * h + h * h)); lra.
  Qed.
  Lemma quotient_bounds A u q : 0 <= A <= 1 / 16 -> 0 < u <= 1 / 1000 -> 0 <= q ->
    (q * (1 - A) * ((1 - u) * (1 - u)) <= (1 + u) * (1 + u) -> q <= 1 + 2 * A + 5 * u) /\
    ((1 - u) * (1 - u) <= q * (1 + A) * ((1 + u) * (1 + u)) -> 1 - A - 4 * u <= q).
  Proof.
    intros HA Hu Hq; split; intros H; apply Rnot_lt_le; intros C.
    - assert (Z1 : (1 + 9 / 2 * u) <= (1 + 2 * A + 5 * u) * (1 - A)) by nra.
      assert (Z2 : (1 + 2 * A + 5 * u) * (1 - A) < q * (1 - A)) by (apply Rmult_lt_compat_r; lra).
      assert (Z3 : 1 - 2 * u <= (1 - u) * (1 - u)) by nra.
      assert (Z4 : (1 + 9 / 2 * u) * (1 - 2 * u) <= q * (1 - A) * ((1 - u) * (1 - u))) by (apply Rmult_le_compat; lra).
      nra.
    - assert (Z1 : (1 - A - 4 * u) * (1 + A) <= 1 - 4 * u) by nra.
      assert (Z2 : q * (1 + A) <= (1 - A - 4 * u) * (1 + A)) by (apply Rmult_le_compat_r; lra).
      assert (Z3 : q * (1 + A) * ((1 + u) * (1 + u)) <= (1 - 4 * u) * ((1 + u) * (1 + u))) by (apply Rmult_le_compat_r; [nra|lra]).
      nra.
  Qed.
  Lemma unit_length : Rabs (sumsq (unit_of item) - 1) <= (9 * INR (length item) + 16) * uu.
  Proof.
    destruct length_above as (Fn & Bn & Hx); pose proof squares_near as SN.
    destruct (squares_above item #0 ltac:(rewrite (proj1 zero_B2R); lra) Hfin) as (_ & S0 & _); rewrite (proj1 zero_B2R) in S0.
    unfold length_of in *; set (S := fold_left _ item #0) in *; destruct (sqrt_finite S Hfin S0) as [_ Eq].
    unfold unit_of, length_of; fold S; set (n := f64_sqrt S) in *.
    destruct (f64_of_Z_correct 1 ltac:(lia)) as (E1 & F1 & _); pose proof (bpow_gt_0 radix2 (-511)) as P0.
    assert (N0 : B2R n <> 0) by lra.
    assert (In1 : bpow radix2 (-512) <= / B2R n <= bpow radix2 511).
    { split; [change (-512)%Z with (- (512))%Z|change 511%Z with (- (-511))%Z]; rewrite bpow_opp; apply Rinv_le_contravar; lra. }
    pose proof (bpow_gt_0 radix2 (-512)) as P2.
    assert (Rg : Rabs (rnd (B2R #1 / B2R n)) <= bpow radix2 511).
    { rewrite E1; unfold Rdiv; rewrite Rmult_1_l; apply abs_round_le_generic; [exact fexp_valid|apply valid_rnd_N|apply generic_format_bpow; unfold SpecFloat.fexp, SpecFloat.emin; lia|].
      rewrite Rabs_pos_eq by lra; lra. }
    destruct (div_ok #1 n F1 N0) as [Ed Fd].
    { unfold in_range; apply Rle_lt_trans with (1 := Rg), bpow_lt; lia. }
    rewrite E1 in Ed; unfold Rdiv in Ed; rewrite Rmult_1_l in Ed; set (l := f64_div #1 n) in *.
    destruct (rel_err (/ B2R n)) as (e2 & B2 & L2); [rewrite Rabs_pos_eq by lra; apply Rle_trans with (bpow radix2 (-512)); [apply bpow_le; lia|lra]|]; rewrite <- Ed in L2.
    pose proof uu_pos as U; pose proof eta_pos as T; pose proof (pos_INR (length item)) as K0; pose proof (sumsq_nonneg item) as Q0.
    assert (U1 : uu <= 1 / 1000) by (apply Rle_trans with (bpow radix2 (-10)); [unfold uu; apply bpow_le; lia|rewrite bpow_m10; lra]).
    assert (KU : (4 * INR (length item) + 2) * uu <= 1 / 16).
    { apply Rle_trans with (8 * bpow radix2 31 * uu).
      - apply Rmult_le_compat_r; [lra|]; assert (1 <= bpow radix2 31) by (change 1 with (bpow radix2 0); apply bpow_le; lia); lra.
      - change 8 with (bpow radix2 3); unfold uu; rewrite <- !bpow_plus.
        apply Rle_trans with (bpow radix2 (-4)); [apply bpow_le; lia|change (bpow radix2 (-4)) with (/ 16); lra]. }
    set (A := (4 * INR (length item) + 2) * uu) in *.
    assert (A0 : 0 <= A) by (unfold A; apply Rmult_le_pos; lra).
    apply Rabs_le_inv in SN; set (N := sumsq item) in *.
    assert (N1 : bpow radix2 (-1022) <= N).
    { eapply Rle_trans; [|apply (sumsq_in c item Hc)]; change (-1022)%Z with (-511 + -511)%Z; rewrite bpow_plus.
      rewrite <- (Rabs_pos_eq (B2R c * B2R c)) by (pose proof (Rle_0_sqr (B2R c)) as Q; exact Q); rewrite Rabs_mult; apply Rmult_le_compat; auto using bpow_ge_0. }
    assert (SL : bpow radix2 (-1023) <= B2R S).
    { assert (bpow radix2 (-1022) = 2 * bpow radix2 (-1023)) by (change (-1022)%Z with (1 + -1023)%Z; rewrite bpow_plus; reflexivity).
      pose proof (bpow_gt_0 radix2 (-1023)); nra. }
    assert (SQ : bpow radix2 (-1022) <= sqrt (B2R S)).
    { apply Rle_trans with (bpow radix2 (-512)); [apply bpow_le; lia|]; rewrite <- (sqrt_square (bpow radix2 (-512))) by apply bpow_ge_0.
      apply sqrt_le_1_alt; rewrite <- bpow_plus; apply Rle_trans with (2 := SL), bpow_le; lia. }
    destruct (rel_err (sqrt (B2R S))) as (e1 & B1 & L1); [rewrite Rabs_pos_eq by apply sqrt_pos; exact SQ|]; rewrite <- Eq in L1.
    assert (Prod : forall x, In x item -> Rabs (B2R x * B2R l) <= 2).
    { intros x Ix; destruct (Hx x Ix) as [_ Lx]; rewrite L2, <- Rmult_assoc, Rabs_mult.
      assert (Q : Rabs (B2R x * / B2R n) <= 1).
      { rewrite Rabs_mult, (Rabs_pos_eq (/ B2R n)) by lra; apply (Rmult_le_reg_r (B2R n)); [lra|]; rewrite Rmult_assoc, Rinv_l by exact N0; lra. }
      replace 2 with (1 * 2) by ring; apply Rmult_le_compat; auto using Rabs_pos; apply Rabs_le; apply Rabs_le_inv in B2; lra. }
    assert (FM : forall x, In x item -> is_finite (f64_mul x l) = true /\ Rabs (B2R x * B2R l) <= 2).
    { intros x Ix; split; [|apply Prod; exact Ix]; destruct (Hx x Ix) as [Fx _].
      apply (mul_ok x l Fx Fd); unfold in_range; apply Rle_lt_trans with (bpow radix2 1); [|apply bpow_lt; lia].
      apply abs_round_le_generic; [exact fexp_valid|apply valid_rnd_N|apply generic_format_bpow; unfold SpecFloat.fexp, SpecFloat.emin; lia|apply Prod; exact Ix]. }
    pose proof (scaled_squares l item Fd FM) as SS; fold N in SS; set (q := B2R l * B2R l * N) in *.
    assert (q0 : 0 <= q) by (unfold q; apply Rmult_le_pos; [pose proof (Rle_0_sqr (B2R l)) as Q; exact Q|exact Q0]).
    assert (LS : B2R l * B2R l * B2R S * ((1 + e1) * (1 + e1)) = (1 + e2) * (1 + e2)).
    { pose proof (sqrt_sqrt (B2R S) S0) as Sq; rewrite L2.
      replace (/ B2R n * (1 + e2) * (/ B2R n * (1 + e2)) * B2R S * ((1 + e1) * (1 + e1)))
        with ((1 + e2) * (1 + e2) * (/ B2R n * / B2R n * (sqrt (B2R S) * (1 + e1) * (sqrt (B2R S) * (1 + e1))))) by (rewrite <- Sq at 3; ring).
      rewrite <- L1; field; exact N0. }
    apply Rabs_le_inv in B1, B2.
    assert (l2 : 0 <= B2R l * B2R l) by (pose proof (Rle_0_sqr (B2R l)) as Q; exact Q).
    assert (Lo : q * (1 - A) <= B2R l * B2R l * B2R S) by (unfold q; rewrite Rmult_assoc; apply Rmult_le_compat_l; [exact l2|lra]).
    assert (Hi : B2R l * B2R l * B2R S <= q * (1 + A)) by (unfold q; rewrite (Rmult_assoc (B2R l * B2R l) N); apply Rmult_le_compat_l; [exact l2|lra]).
    destruct (quotient_bounds A uu q ltac:(lra) ltac:(lra) q0) as [Qu Ql].
    assert (q1 : q <= 1 + 2 * A + 5 * uu).
    { apply Qu; apply Rle_trans with ((1 + e2) * (1 + e2)); [rewrite <- LS|apply Rmult_le_compat; lra].
      apply Rmult_le_compat; [apply Rmult_le_pos; lra|apply Rmult_le_pos; lra|exact Lo|apply Rmult_le_compat; lra]. }
    assert (q2 : 1 - A - 4 * uu <= q).
    { apply Ql; apply Rle_trans with ((1 + e2) * (1 + e2)); [apply Rmult_le_compat; lra|rewrite <- LS].
      apply Rmult_le_compat; [apply Rmult_le_pos; [exact l2|exact S0]|apply Rmult_le_pos; lra|exact Hi|apply Rmult_le_compat; lra]. }
    assert (T9 : 9 * eta <= uu).
    { apply Rle_trans with (bpow radix2 4 * eta); [apply Rmult_le_compat_r; [lra|change (bpow radix2 4) with 16; lra]|unfold eta, uu; rewrite <- bpow_plus; apply bpow_le; lia]. }
    assert (Kt : INR (length item) * (9 * eta) <= INR (length item) * uu) by (apply Rmult_le_compat_l; lra).
    assert (q3 : 3 * uu * q <= 4 * uu) by nra.
    apply Rabs_le_inv in SS; apply Rabs_le; unfold A in *; split; lra.
  Qed.
End Item.

(** ** no overflow *)
Lemma fmt_scaled i : (0 <= i <= 2 ^ 53)%Z -> fmt (IZR i * bpow radix2 980).
Proof.
  intros Hi; destruct (Z.eq_dec i (2 ^ 53)) as [->|N].
  - change (IZR (2 ^ 53)) with (bpow radix2 53); rewrite <- bpow_plus; apply generic_format_bpow; unfold SpecFloat.fexp, SpecFloat.emin; lia.
  - apply (generic_format_FLT radix2 (SpecFloat.emin 53 1024) 53); exists (Float radix2 i 980); [reflexivity| |unfold SpecFloat.emin; cbn [Fexp]; lia].
    change (radix2 ^ 53)%Z with (2 ^ 53)%Z; cbn [Fnum]; rewrite Z.abs_eq by lia; lia.
Qed.
Lemma squares_finite l : forall (acc : F64) i, is_finite acc = true -> (0 <= i)%Z -> 0 <= B2R acc <= IZR i * bpow radix2 980 ->
  (i + len l <= 2 ^ 40)%Z -> Forall (fun x => is_finite x = true /\ Rabs (B2R x) <= bpow radix2 490) l ->
  is_finite (fold_left (fun a v => f64_add a (f64_mul v v)) l acc) = true.
Proof.
  induction l as [|x l IH]; intros acc i Fa Hi Ba Hl Hx; [exact Fa|]; cbn [fold_left].
  inversion Hx as [|? ? [Fx Bx] Hx']; subst; unfold len in *; cbn [length] in Hl; rewrite Nat2Z.inj_succ in Hl.
  assert (F980 : fmt (bpow radix2 980)) by (apply generic_format_bpow; unfold SpecFloat.fexp, SpecFloat.emin; lia).
  assert (P : 0 <= B2R x * B2R x <= bpow radix2 980).
  { split; [exact (Rle_0_sqr (B2R x))|]; rewrite <- (Rabs_pos_eq (B2R x * B2R x)) by exact (Rle_0_sqr (B2R x)); rewrite Rabs_mult.
    change 980%Z with (490 + 490)%Z; rewrite bpow_plus; apply Rmult_le_compat; auto using Rabs_pos. }
  assert (Pr : 0 <= rnd (B2R x * B2R x) <= bpow radix2 980) by (split; [rewrite <- rnd_0; apply rnd_le; lra|rewrite <- (rnd_fmt _ F980); apply rnd_le; lra]).
  destruct (mul_ok x x Fx Fx) as [Em Fm].
  { unfold in_range; rewrite Rabs_pos_eq by lra; apply Rle_lt_trans with (bpow radix2 980); [lra|apply bpow_lt; lia]. }
  assert (Sm : 0 <= B2R acc + B2R (f64_mul x x) <= IZR (i + 1) * bpow radix2 980) by (rewrite Em, plus_IZR; lra).
  assert (Sr : 0 <= rnd (B2R acc + B2R (f64_mul x x)) <= IZR (i + 1) * bpow radix2 980).
  { split; [rewrite <- rnd_0; apply rnd_le; lra|rewrite <- (rnd_fmt (IZR (i + 1) * bpow radix2 980)) by (apply fmt_scaled; lia); apply rnd_le; lra]. }
  destruct (add_ok acc (f64_mul x x) Fa Fm) as [Ea Fa'].
  { unfold in_range; rewrite Rabs_pos_eq by lra; apply Rle_lt_trans with (bpow radix2 40 * bpow radix2 980).
    - apply Rle_trans with (1 := proj2 Sr); apply Rmult_le_compat_r; [apply bpow_ge_0|]; change (bpow radix2 40) with (IZR (2 ^ 40)); apply IZR_le; lia.
    - rewrite <- bpow_plus; apply bpow_lt; lia. }
  apply (IH _ (i + 1)%Z Fa'); [lia|rewrite Ea; exact Sr|lia|exact Hx'].
Qed.

(** ** C119 *)
Open Scope Z_scope.
Lemma normalize_vector_f64 (L : Libm) (s : Serie F64) k rows : repr s k rows -> 2 <= k -> rows <> [] ->
  @normalize F64 (f64_num L) s = Ok (mk k (map unit_of rows) 3).
Proof.
  intros Hs Hk Hne; unfold normalize; rewrite (isValid_repr _ _ _ Hs), (repr_itemSize _ _ _ Hs).
  replace (0 <? k) with true by (symmetry; apply Z.ltb_lt; lia).
  replace (k =? 1) with false by (symmetry; apply Z.eqb_neq; lia); cbn [negb].
  apply (run_map_vv _ s k rows); auto; [unfold repr in Hs; lia|apply map_length| |].
  - pose proof (repr_rows _ _ _ Hs) as Hr; clear -Hr; induction Hr as [|r rows Lr Hr IH]; simpl; constructor; [unfold unit_of; rewrite len_map; exact Lr|exact IH].
  - intros j r y Hj Hy; rewrite nth_error_map, Hj in Hy; injection Hy as <-; reflexivity.
Qed.
Theorem C119_normalize_partial :
  forall (L : Libm) (s : Serie F64) k rows, repr s k rows -> 2 <= k -> rows <> [] ->
  exists f, @normalize F64 (f64_num L) s = Ok (mk k (map f rows) 3) /\
  forall r, In r rows -> Forall (fun x => is_finite x = true /\ (Rabs (B2R x) <= bpow radix2 490)%R) r -> Exists (fun x => (bpow radix2 (-511) <= Rabs (B2R x))%R) r ->
    Forall (fun y => is_finite y = true /\ (-1 <= B2R y <= 1)%R) (f r) /\
    (Rabs (sumsq (f r) - 1) <= (9 * IZR k + 16) * bpow radix2 (-53))%R.
Proof.
  intros L s k rows Hs Hk Hne; exists unit_of; split; [apply normalize_vector_f64; assumption|].
  intros r Hr Hx Hbig; apply Exists_exists in Hbig; destruct Hbig as (c & Hc & Bc).
  pose proof (repr_rows _ _ _ Hs) as Rr; unfold rows_of_size in Rr; rewrite Forall_forall in Rr; specialize (Rr r Hr).
  pose proof (repr_bounds _ _ _ Hs) as Hb; destruct zero_B2R as [E0 F0].
  assert (Fin : is_finite (fold_left (fun a v => f64_add a (f64_mul v v)) r #0) = true).
  { apply (squares_finite r #0 0 F0); [lia|rewrite E0, Rmult_0_l; split; apply Rle_refl|change (0 + len r <= 2 ^ 40)%Z; assert (Rq : len r = k) by exact Rr; rewrite Rq; lia|exact Hx]. }
  split.
  - apply Forall_forall; intros y Hy; apply (unit_within r c Fin Hc Bc y Hy).
  - assert (Ek : IZR k = INR (length r)) by (rewrite INR_IZR_INZ; f_equal; unfold len in Rr; lia); rewrite Ek.
    apply (unit_length r c Fin Hc Bc); rewrite <- Ek; change (bpow radix2 31) with (IZR (2 ^ 31)); apply IZR_le; lia.
Qed.
Print Assumptions C119_normalize_partial.

Lemma zero_by (x : F64) : match x with B754_zero _ => true | _ => false end = true -> is_zero x.
Proof. destruct x as [u| | |]; try discriminate; intros _; exists u; reflexivity. Qed.
Lemma inf_by (x : F64) : match x with B754_infinity false => true | _ => false end = true -> x = B754_infinity false.
Proof. destruct x as [|[|]| |]; try discriminate; reflexivity. Qed.
Lemma above_one (x : F64) : is_finite x = true -> Bltb #1 x = true -> (1 < B2R x)%R.
Proof.
  intros F Q; destruct (f64_of_Z_correct 1 ltac:(lia)) as (E & F1 & _).
  apply (lt_ok _ _ F1 F) in Q; rewrite E in Q; exact Q.
Qed.
Lemma above_zero (x : F64) : is_finite x = true -> Bltb #0 x = true -> (0 < B2R x)%R.
Proof. intros F Q; apply (lt_ok _ _ (proj2 zero_B2R) F) in Q; rewrite (proj1 zero_B2R) in Q; exact Q. Qed.
Lemma sumsq_nonzero (x : F64) : (0 < B2R x)%R -> (sumsq [x; #0; #0] <> 0)%R.
Proof. intros H; unfold sumsq; cbn [map fold_right]; pose proof (Rle_0_sqr (B2R #0)) as Z; unfold Rsqr in Z; nra. Qed.

(** too large: a finite vector that is not zero becomes the zero vector *)
Theorem C119_large_refuted :
  exists (s : Serie F64) r y, repr s 3 [r] /\ Forall (fun x => is_finite x = true) r /\ (sumsq r <> 0)%R /\
  @normalize F64 F64N s = Ok (mk 3 [y] 3) /\ Forall is_zero y.
Proof.
  set (b := f64_of_Z (2 ^ 600)); exists (mk 3 [[b; #0; #0]] 3), [b; #0; #0], (unit_of [b; #0; #0]).
  assert (Fb : is_finite b = true) by (vm_compute; reflexivity).
  split; [repr_ex|]; split; [repeat (apply Forall_cons; [vm_compute; reflexivity|]); apply Forall_nil|]; split.
  - apply sumsq_nonzero, above_zero; [exact Fb|vm_compute; reflexivity].
  - split; [apply (normalize_vector_f64 libm0 _ 3 [[b; #0; #0]]); [repr_ex|lia|discriminate]|].
    repeat (apply Forall_cons; [apply zero_by; vm_compute; reflexivity|]); apply Forall_nil.
Qed.
Print Assumptions C119_large_refuted.
(** too small: infinite components *)
Theorem C119_small_refuted :
  exists (s : Serie F64) r y, repr s 3 [r] /\ Forall (fun x => is_finite x = true) r /\ (sumsq r <> 0)%R /\
  @normalize F64 F64N s = Ok (mk 3 [y] 3) /\ nth_error y 0 = Some (B754_infinity false).
Proof.
  set (b := f64_div #1 #(2 ^ 600)); exists (mk 3 [[b; #0; #0]] 3), [b; #0; #0], (unit_of [b; #0; #0]).
  assert (Fb : is_finite b = true) by (vm_compute; reflexivity).
  split; [repr_ex|]; split; [repeat (apply Forall_cons; [vm_compute; reflexivity|]); apply Forall_nil|]; split.
  - apply sumsq_nonzero, above_zero; [exact Fb|vm_compute; reflexivity].
  - split; [apply (normalize_vector_f64 libm0 _ 3 [[b; #0; #0]]); [repr_ex|lia|discriminate]|].
    unfold unit_of; cbn [map nth_error]; apply (f_equal (@Some F64)).
    apply inf_by; vm_compute; reflexivity.
Qed.
Print Assumptions C119_small_refuted.
(** between: a component above one *)
Theorem C119_above_refuted :
  exists (s : Serie F64) r y c, repr s 2 [r] /\ Forall (fun x => is_finite x = true) r /\
  @normalize F64 F64N s = Ok (mk 2 [y] 3) /\ nth_error y 0 = Some c /\ is_finite c = true /\ (1 < B2R c)%R.
Proof.
  set (b := f64_div #9 #(2 ^ 540)); exists (mk 2 [[b; #0]] 3), [b; #0], (unit_of [b; #0]), (nth 0 (unit_of [b; #0]) #0).
  assert (Fc : is_finite (nth 0 (unit_of [b; #0]) #0) = true) by (vm_compute; reflexivity).
  split; [repr_ex|]; split; [repeat (apply Forall_cons; [vm_compute; reflexivity|]); apply Forall_nil|]; split; [|split; [|split; [exact Fc|]]].
  - apply (normalize_vector_f64 libm0 _ 2 [[b; #0]]); [repr_ex|lia|discriminate].
  - apply nth_error_nth'; unfold unit_of; rewrite map_length; apply Nat.lt_0_succ.
  - apply above_one; [exact Fc|vm_compute; reflexivity].
Qed.
Print Assumptions C119_above_refuted.

(** the hypotheses of C119_normalize_partial are met by (3, 4, 0) *)
Example C119_ex : exists s : Serie F64, repr s 3 [[#3; #4; #0]] /\ Forall (fun x => is_finite x = true /\ (Rabs (B2R x) <= bpow radix2 490)%R) [#3; #4; #0] /\
  Exists (fun x => (bpow radix2 (-511) <= Rabs (B2R x))%R) [#3; #4; #0].
Proof.
  exists (mk 3 [[#3; #4; #0]] 3); split; [repr_ex|].
  assert (E : forall z, (0 <= z <= 4)%Z -> (Rabs (B2R #z) <= bpow radix2 490)%R).
  { intros z Hz; rewrite (proj1 (f64_of_Z_correct z ltac:(lia))); rewrite Rabs_pos_eq by (apply IZR_le; lia); apply Rle_trans with (bpow radix2 2); [change (bpow radix2 2) with (IZR 4); apply IZR_le; lia|apply bpow_le; lia]. }
  split.
  - repeat (apply Forall_cons; [split; [vm_compute; reflexivity|apply E; lia]|]); apply Forall_nil.
  - apply Exists_cons_hd; rewrite (proj1 (f64_of_Z_correct 3 ltac:(lia))); rewrite Rabs_pos_eq by lra; apply Rle_trans with (bpow radix2 1); [apply bpow_le; lia|change (bpow radix2 1) with 2%R; lra].
Qed.
