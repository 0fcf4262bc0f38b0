(** * binary64: operations whose rounded result is in range. *)
From Verif Require Import Base Num F64 F64Facts F64Arith.
From Flocq Require Import Core Plus_error IEEE754.BinarySingleNaN.
From Coq Require Import Reals Lra Psatz.
Open Scope R_scope.

#[global] Instance fexp_valid : Valid_exp (SpecFloat.fexp 53 1024) := @fexp_correct 53 1024 F64_prec.
#[global] Instance fexp_mono : Monotone_exp (SpecFloat.fexp 53 1024) := @fexp_monotone 53 1024.

(** the real number is finite as a double *)
Definition in_range (r : R) : Prop := Rabs (rnd r) < bpow radix2 1024.

Lemma rnd_le x y : x <= y -> rnd x <= rnd y.
Proof. apply round_le; [exact fexp_valid|apply valid_rnd_N]. Qed.
Lemma rnd_fmt x : fmt x -> rnd x = x.
Proof. apply round_generic, valid_rnd_N. Qed.
Lemma rnd_0 : rnd 0 = 0.
Proof. apply round_0, valid_rnd_N. Qed.
Lemma fmt_rnd x : fmt (rnd x).
Proof. apply generic_format_round; [exact fexp_valid|apply valid_rnd_N]. Qed.
(** between two doubles *)
Lemma rnd_between (a b : F64) r : B2R a <= r <= B2R b -> B2R a <= rnd r <= B2R b.
Proof. intros [H1 H2]; rewrite <- (rnd_B2R a), <- (rnd_B2R b); split; apply rnd_le; assumption. Qed.
Lemma range_between (a b : F64) r : B2R a <= r <= B2R b -> in_range r.
Proof.
  intros H; apply rnd_between in H; unfold in_range; pose proof (B2R_lt_emax a) as Ha; pose proof (B2R_lt_emax b) as Hb.
  apply Rabs_lt; apply Rabs_lt_inv in Ha, Hb; lra.
Qed.
Lemma range_abs (a : F64) r : Rabs r <= Rabs (B2R a) -> in_range r.
Proof.
  intros H; unfold in_range; apply Rle_lt_trans with (Rabs (B2R a)); [|apply B2R_lt_emax].
  apply abs_round_le_generic; [exact fexp_valid|apply valid_rnd_N|apply generic_format_abs, fmt_B2R|exact H].
Qed.

Section Ops.
  Variables x y : F64.
  Hypothesis Fx : is_finite x = true.
  Hypothesis Fy : is_finite y = true.
  Lemma add_ok : in_range (B2R x + B2R y) -> B2R (f64_add x y) = rnd (B2R x + B2R y) /\ is_finite (f64_add x y) = true.
  Proof.
    intros H; pose proof (Bplus_correct 53 1024 F64_prec F64_emax mode_NE x y Fx Fy) as C; unfold round_mode in C.
    rewrite Rlt_bool_true in C by exact H; split; apply C.
  Qed.
  Lemma sub_ok : in_range (B2R x - B2R y) -> B2R (f64_sub x y) = rnd (B2R x - B2R y) /\ is_finite (f64_sub x y) = true.
  Proof.
    intros H; pose proof (Bminus_correct 53 1024 F64_prec F64_emax mode_NE x y Fx Fy) as C; unfold round_mode in C.
    rewrite Rlt_bool_true in C by exact H; split; apply C.
  Qed.
  Lemma mul_ok : in_range (B2R x * B2R y) -> B2R (f64_mul x y) = rnd (B2R x * B2R y) /\ is_finite (f64_mul x y) = true.
  Proof.
    intros H; pose proof (Bmult_correct 53 1024 F64_prec F64_emax mode_NE x y) as C; unfold round_mode in C.
    rewrite Rlt_bool_true in C by exact H; rewrite Fx, Fy in C; split; apply C.
  Qed.
  Lemma div_ok : B2R y <> 0 -> in_range (B2R x / B2R y) -> B2R (f64_div x y) = rnd (B2R x / B2R y) /\ is_finite (f64_div x y) = true.
  Proof.
    intros Hy H; pose proof (Bdiv_correct 53 1024 F64_prec F64_emax mode_NE x y Hy) as C; unfold round_mode in C.
    rewrite Rlt_bool_true in C by exact H; rewrite Fx in C; split; apply C.
  Qed.
  (** a finite result was in range *)
  Lemma add_finite : is_finite (f64_add x y) = true -> in_range (B2R x + B2R y).
  Proof.
    intros H; unfold in_range; apply Rnot_le_lt; intros Hge.
    pose proof (Bplus_correct 53 1024 F64_prec F64_emax mode_NE x y Fx Fy) as C; unfold round_mode in C.
    rewrite Rlt_bool_false in C by exact Hge; destruct C as [C _]; unfold f64_add in H; destruct (Bplus mode_NE x y); try discriminate H; cbn in C; discriminate C.
  Qed.
  Lemma sub_finite : is_finite (f64_sub x y) = true -> in_range (B2R x - B2R y).
  Proof.
    intros H; unfold in_range; apply Rnot_le_lt; intros Hge.
    pose proof (Bminus_correct 53 1024 F64_prec F64_emax mode_NE x y Fx Fy) as C; unfold round_mode in C.
    rewrite Rlt_bool_false in C by exact Hge; destruct C as [C _]; unfold f64_sub in H; destruct (Bminus mode_NE x y); try discriminate H; cbn in C; discriminate C.
  Qed.
  Lemma mul_finite : is_finite (f64_mul x y) = true -> in_range (B2R x * B2R y).
  Proof.
    intros H; unfold in_range; apply Rnot_le_lt; intros Hge.
    pose proof (Bmult_correct 53 1024 F64_prec F64_emax mode_NE x y) as C; unfold round_mode in C.
    rewrite Rlt_bool_false in C by exact Hge; unfold f64_mul in H; destruct (Bmult mode_NE x y); try discriminate H; cbn in C; discriminate C.
  Qed.
  Lemma le_ok : Bleb x y = true <-> B2R x <= B2R y.
  Proof. rewrite Bleb_correct by assumption; split; [intros H; destruct (Rle_bool_spec (B2R x) (B2R y)); [assumption|discriminate]|apply Rle_bool_true]. Qed.
  Lemma lt_ok : Bltb x y = true <-> B2R x < B2R y.
  Proof. rewrite Bltb_correct by assumption; split; [intros H; destruct (Rlt_bool_spec (B2R x) (B2R y)); [assumption|discriminate]|apply Rlt_bool_true]. Qed.
End Ops.

(** a number below one, times a positive double, stays below what the double was rounded from *)
Lemma scaled_below (c : F64) d : fmt (B2R c) -> 0 <= B2R c < 1 -> 0 <= d -> (exists x y : F64, d = B2R x - B2R y) -> rnd (B2R c * rnd d) <= d.
Proof.
  intros Fc [Hc0 Hc1] Hd (x & y & Hxy).
  assert (D0 : 0 <= rnd d) by (rewrite <- rnd_0; apply rnd_le; exact Hd).
  destruct (Rle_or_lt d (bpow radix2 (-1021))) as [Hs|Hl].
  - assert (E : rnd d = d).
    { apply rnd_fmt; rewrite Hxy; unfold Rminus; apply (FLT_format_plus_small radix2 (SpecFloat.emin 53 1024) 53).
      - apply fmt_B2R.
      - apply generic_format_opp, fmt_B2R.
      - change (B2R x + - B2R y) with (B2R x - B2R y); rewrite <- Hxy, Rabs_pos_eq by exact Hd; exact Hs. }
    rewrite E; rewrite <- E at 2; apply rnd_le; nra.
  - set (D := rnd d) in *.
    assert (FD : fmt D) by apply fmt_rnd.
    assert (B21 : fmt (bpow radix2 (-1021))) by (apply generic_format_bpow; unfold SpecFloat.fexp, SpecFloat.emin; lia).
    assert (B22 : fmt (bpow radix2 (-1022))) by (apply generic_format_bpow; unfold SpecFloat.fexp, SpecFloat.emin; lia).
    assert (HD : bpow radix2 (-1021) <= D) by (rewrite <- (rnd_fmt _ B21); apply rnd_le; lra).
    assert (H22 : bpow radix2 (-1022) < D) by (apply Rlt_le_trans with (2 := HD); apply bpow_lt; lia).
    pose proof (bpow_gt_0 radix2 (-1022)) as P22.
    set (P := pred radix2 (SpecFloat.fexp 53 1024) D).
    assert (FP : fmt P) by (apply generic_format_pred; [exact fexp_valid|exact FD]).
    assert (HP : bpow radix2 (-1022) <= P) by (apply pred_ge_gt; [exact fexp_valid|exact B22|exact FD|exact H22]).
    assert (PD : P < D) by (apply pred_lt_id; lra).
    assert (U : P + ulp radix2 (SpecFloat.fexp 53 1024) P = D) by (apply pred_plus_ulp; [exact fexp_valid|lra|exact FD]).
    assert (UB1 : ulp radix2 (SpecFloat.fexp 53 1024) P <= Rabs P * bpow radix2 (1 - 53)).
    { apply (ulp_FLT_le radix2 (SpecFloat.emin 53 1024) 53); rewrite Rabs_pos_eq by lra; exact HP. }
    rewrite Rabs_pos_eq in UB1 by lra.
    assert (C1 : B2R c <= 1 - bpow radix2 (-53)).
    { assert (F1 : fmt 1) by (change 1 with (bpow radix2 0); apply generic_format_bpow; unfold SpecFloat.fexp, SpecFloat.emin; lia).
      replace (1 - bpow radix2 (-53)) with (pred radix2 (SpecFloat.fexp 53 1024) 1); [apply pred_ge_gt; [exact fexp_valid|exact Fc|exact F1|exact Hc1]|].
      change 1 with (bpow radix2 0) at 1; rewrite pred_bpow; reflexivity. }
    assert (Hle : rnd (B2R c * D) <= P).
    { apply round_N_le_midp; [exact fexp_valid|exact FP|].
      assert (SP : succ radix2 (SpecFloat.fexp 53 1024) P = D) by (apply succ_pred; [exact fexp_valid|exact FD]); rewrite SP.
      change (1 - 53)%Z with (-52)%Z in UB1.
      assert (E2 : bpow radix2 (-52) = 2 * bpow radix2 (-53)) by (change (-52)%Z with (1 + -53)%Z; rewrite bpow_plus; reflexivity).
      pose proof (bpow_gt_0 radix2 (-53)); rewrite E2 in UB1; nra. }
    apply Rle_trans with (1 := Hle).
    apply Rnot_lt_le; intros Hlt; apply rnd_le in Hlt || (apply Rlt_le in Hlt; apply rnd_le in Hlt); fold D in Hlt; rewrite (rnd_fmt P FP) in Hlt; lra.
Qed.

Lemma zero_B2R : B2R #0 = 0 /\ is_finite #0 = true.
Proof. destruct (f64_of_Z_correct 0 ltac:(lia)) as (A & B & _); auto. Qed.

(** ** Interpolation [c * (b - a) + a] *)
Section Lerp.
  Variables a b : F64.
  Hypothesis Fa : is_finite a = true.
  Hypothesis Fb : is_finite b = true.
  Hypothesis Fd : is_finite (f64_sub b a) = true.
  Hypothesis Hab : B2R a <= B2R b.
  Definition lerp (c : F64) : F64 := f64_add (f64_mul c (f64_sub b a)) a.

  Lemma lerp_steps c : is_finite c = true -> 0 <= B2R c < 1 ->
    B2R (f64_sub b a) = rnd (B2R b - B2R a) /\ 0 <= B2R (f64_sub b a) /\
    B2R (f64_mul c (f64_sub b a)) = rnd (B2R c * B2R (f64_sub b a)) /\ is_finite (f64_mul c (f64_sub b a)) = true /\
    0 <= B2R (f64_mul c (f64_sub b a)) <= B2R b - B2R a /\
    B2R (lerp c) = rnd (B2R (f64_mul c (f64_sub b a)) + B2R a) /\ is_finite (lerp c) = true /\ B2R a <= B2R (lerp c) <= B2R b.
  Proof.
    intros Fc Hc01.
    pose proof (sub_finite b a Fb Fa Fd) as Rg; destruct (sub_ok b a Fb Fa Rg) as [Ed _]; unfold lerp.
    set (D := f64_sub b a) in *.
    assert (D0 : 0 <= B2R D) by (rewrite Ed, <- rnd_0; apply rnd_le; lra).
    assert (Hm : B2R #0 <= B2R c * B2R D <= B2R D) by (rewrite (proj1 zero_B2R); nra).
    destruct (mul_ok c D Fc Fd (range_between _ _ _ Hm)) as [Em Fm].
    assert (M0 : 0 <= B2R (f64_mul c D)) by (rewrite Em, <- (proj1 zero_B2R); apply (rnd_between _ _ _ Hm)).
    assert (M1 : B2R (f64_mul c D) <= B2R b - B2R a).
    { rewrite Em, Ed; apply scaled_below; [apply fmt_B2R|exact Hc01|lra|exists b, a; reflexivity]. }
    assert (Hs : B2R a <= B2R (f64_mul c D) + B2R a <= B2R b) by lra.
    destruct (add_ok (f64_mul c D) a Fm Fa (range_between _ _ _ Hs)) as [Es Fs].
    repeat (split; [first [assumption|lra]|]); rewrite Es; apply (rnd_between _ _ _ Hs).
  Qed.
  Lemma lerp_within c : is_finite c = true -> 0 <= B2R c < 1 -> is_finite (lerp c) = true /\ B2R a <= B2R (lerp c) <= B2R b.
  Proof. intros Fc Hc; destruct (lerp_steps c Fc Hc) as (_ & _ & _ & _ & _ & _ & F & B); auto. Qed.
  Lemma lerp_mono c c' : is_finite c = true -> is_finite c' = true -> 0 <= B2R c -> B2R c <= B2R c' -> B2R c' < 1 -> B2R (lerp c) <= B2R (lerp c').
  Proof.
    intros Fc Fc' H0 H1 H2; destruct (lerp_steps c Fc ltac:(lra)) as (_ & D0 & M & _ & _ & E & _); destruct (lerp_steps c' Fc' ltac:(lra)) as (_ & _ & M' & _ & _ & E' & _).
    rewrite E, E'; apply rnd_le, Rplus_le_compat_r; rewrite M, M'; apply rnd_le, Rmult_le_compat_r; assumption.
  Qed.
  Lemma lerp_0 c : is_finite c = true -> B2R c = 0 -> B2R (lerp c) = B2R a.
  Proof.
    intros Fc Hc; destruct (lerp_steps c Fc ltac:(lra)) as (_ & _ & M & _ & _ & E & _); rewrite E, M, Hc, Rmult_0_l, rnd_0, Rplus_0_l; apply rnd_B2R.
  Qed.
End Lerp.

(** ** floor *)
Lemma floor_ok (x : F64) : is_finite x = true -> B2R (Bnearbyint mode_DN x) = IZR (Zfloor (B2R x)) /\ is_finite (Bnearbyint mode_DN x) = true.
Proof.
  intros F; destruct (Bnearbyint_correct 53 1024 F64_emax mode_DN x) as (A & B & _); rewrite A, B, F; split; [|reflexivity].
  unfold round, F2R, scaled_mantissa, cexp, FIX_exp; cbn [Fnum Fexp Z.opp bpow round_mode]; rewrite !Rmult_1_r; reflexivity.
Qed.
Lemma trunc_ok (x : F64) n : B2R x = IZR n -> Btrunc x = n.
Proof.
  intros E; apply eq_IZR; rewrite (Btrunc_correct 53 1024 F64_emax), E; apply round_generic; [apply valid_rnd_ZR|].
  apply generic_format_FIX; exists (Float radix2 n 0); [unfold F2R; cbn; rewrite Rmult_1_r; reflexivity|reflexivity].
Qed.
(** the fractional part of a number that is not negative is exact *)
Lemma frac_fmt x : fmt x -> 0 <= x -> fmt (x - IZR (Zfloor x)).
Proof.
  intros F H0; apply (FLT_format_generic radix2 (SpecFloat.emin 53 1024) 53) in F; destruct F as [[m e] E Hm He]; cbn [Fnum Fexp] in *.
  destruct (Z.le_gt_cases 0 e) as [P|N].
  - assert (I : x = IZR (m * 2 ^ e)) by (rewrite E; unfold F2R; cbn [Fnum Fexp]; rewrite mult_IZR; f_equal; symmetry; apply (IZR_Zpower radix2); exact P).
    rewrite I, Zfloor_IZR; replace (IZR (m * 2 ^ e) - IZR (m * 2 ^ e)) with 0 by ring; apply generic_format_0.
  - pose proof (Zfloor_lb x) as L; assert (0 <= Zfloor x)%Z by (apply Zfloor_lub; exact H0).
    assert (P : IZR (2 ^ (- e)) = bpow radix2 (- e)) by (apply (IZR_Zpower radix2); lia).
    assert (B1 : bpow radix2 (- e) * bpow radix2 e = 1) by (rewrite <- bpow_plus, Z.add_opp_diag_l; reflexivity).
    assert (I : x - IZR (Zfloor x) = F2R (Float radix2 (m - Zfloor x * 2 ^ (- e)) e)).
    { unfold F2R; cbn [Fnum Fexp]; rewrite minus_IZR, mult_IZR, P, Rmult_minus_distr_r, Rmult_assoc, B1, Rmult_1_r; rewrite E at 1; reflexivity. }
    apply (generic_format_FLT radix2 (SpecFloat.emin 53 1024) 53); eexists; [exact I| |exact He]; cbn [Fnum].
    assert (G : 0 <= x - IZR (Zfloor x)) by lra.
    rewrite I in G; apply Fnum_ge_0 in G; cbn [Fnum] in G.
    assert (0 <= Zfloor x * 2 ^ (- e))%Z by (apply Z.mul_nonneg_nonneg; [assumption|apply Z.pow_nonneg; lia]); lia.
Qed.
