(** * binary64: absolute errors of the operations away from overflow. *)
From Coq Require Import Reals Lra Psatz.
From Flocq Require Import Core Plus_error Relative IEEE754.BinarySingleNaN.
From Verif Require Import Base Num F64 F64Facts F64Arith F64Round.
Open Scope R_scope.

(** half a unit in the last place of 1 *)
Definition uu : R := / 9007199254740992.
Definition lo : R := bpow radix2 (-1000).
Definition hi : R := bpow radix2 1000.
Lemma uu_bpow : uu = bpow radix2 (-53).
Proof. reflexivity. Qed.
Lemma lo_pos : 0 < lo.
Proof. apply bpow_gt_0. Qed.
Lemma lo_hi : lo * lo <= lo /\ lo <= 1 /\ 1 <= hi.
Proof.
  assert (lo <= 1) by (change 1 with (bpow radix2 0); apply bpow_le; lia).
  assert (1 <= hi) by (change 1 with (bpow radix2 0); apply bpow_le; lia).
  pose proof lo_pos; split; [|split; assumption]; rewrite <- (Rmult_1_r lo) at 3; apply Rmult_le_compat_l; lra.
Qed.

Lemma rnd_err r B : Rabs r <= B -> lo <= B -> Rabs (rnd r - r) <= uu * B.
Proof.
  intros H L; destruct (error_N_FLT radix2 (-1074) 53 ltac:(lia) (fun z => negb (Z.even z)) r) as (e & h & He & Hh & E0 & E).
  change (round radix2 (FLT_exp (-1074) 53) (Znearest (fun z => negb (Z.even z))) r) with (rnd r) in E; rewrite E.
  replace (r * (1 + e) + h - r) with (r * e + h) by ring.
  assert (U : / 2 * bpow radix2 (- (53) + 1) = uu) by (rewrite uu_bpow; change (- (53) + 1)%Z with (1 + -53)%Z; rewrite bpow_plus; change (bpow radix2 1) with 2; lra).
  rewrite U in He.
  assert (P : 0 < uu) by (unfold uu; lra).
  destruct (Rmult_integral _ _ E0) as [-> | ->].
  - rewrite Rmult_0_r, Rplus_0_l; apply Rle_trans with (1 := Hh); apply Rle_trans with (uu * lo); [|apply Rmult_le_compat_l; lra].
    rewrite uu_bpow; unfold lo; rewrite <- bpow_plus; apply Rle_trans with (bpow radix2 (-1074)); [pose proof (bpow_gt_0 radix2 (-1074)); lra|apply bpow_le; lia].
  - rewrite Rplus_0_r, Rabs_mult, Rmult_comm; apply Rmult_le_compat; try apply Rabs_pos; assumption.
Qed.
Lemma small_range r : Rabs r <= hi -> in_range r.
Proof.
  intros H; unfold in_range; apply Rle_lt_trans with (bpow radix2 1000); [|apply bpow_lt; lia].
  apply abs_round_le_generic; [exact fexp_valid|apply valid_rnd_N|apply generic_format_bpow; unfold SpecFloat.fexp, SpecFloat.emin; lia|exact H].
Qed.

(** [x] is a number at most [e] away from [r] *)
Definition nearby (x : F64) (r e : R) : Prop := is_finite x = true /\ Rabs (B2R x - r) <= e.
Lemma nearby_self x : is_finite x = true -> nearby x (B2R x) 0.
Proof. intros F; split; [exact F|]; replace (B2R x - B2R x) with 0 by ring; rewrite Rabs_R0; lra. Qed.
Lemma nearby_le x r e e' : nearby x r e -> e <= e' -> nearby x r e'.
Proof. intros [F H] L; split; [exact F|lra]. Qed.

Lemma abs_le x a : Rabs x <= a <-> - a <= x <= a.
Proof. split; [intros H; apply Rabs_le_inv; exact H|intros H; apply Rabs_le; exact H]. Qed.
Lemma prod_le x y a b : Rabs x <= a -> Rabs y <= b -> Rabs (x * y) <= a * b.
Proof. intros H1 H2; rewrite Rabs_mult; apply Rmult_le_compat; try apply Rabs_pos; assumption. Qed.

(** bounds [a], [b] of the exact operands, [B] of the result *)
Lemma add_near x y r s d e B t : nearby x r d -> nearby y s e -> Rabs (r + s) + d + e <= B -> lo <= B <= hi ->
  d + e + uu * B <= t -> nearby (f64_add x y) (r + s) t.
Proof.
  intros [Fx Hx] [Fy Hy] HB Hr Ht; apply abs_le in Hx, Hy.
  assert (A : Rabs (B2R x + B2R y) <= B).
  { replace (B2R x + B2R y) with ((r + s) + (B2R x - r + (B2R y - s))) by ring.
    apply Rle_trans with (1 := Rabs_triang _ _); assert (Rabs (B2R x - r + (B2R y - s)) <= d + e) by (apply abs_le; lra); lra. }
  destruct (add_ok x y Fx Fy) as [E F]; [apply small_range; lra|].
  split; [exact F|]; rewrite E; pose proof (rnd_err _ B A ltac:(lra)) as R; apply abs_le in R; apply abs_le; lra.
Qed.
Lemma sub_near x y r s d e B t : nearby x r d -> nearby y s e -> Rabs (r - s) + d + e <= B -> lo <= B <= hi ->
  d + e + uu * B <= t -> nearby (f64_sub x y) (r - s) t.
Proof.
  intros [Fx Hx] [Fy Hy] HB Hr Ht; apply abs_le in Hx, Hy.
  assert (A : Rabs (B2R x - B2R y) <= B).
  { replace (B2R x - B2R y) with ((r - s) + (B2R x - r - (B2R y - s))) by ring.
    apply Rle_trans with (1 := Rabs_triang _ _); assert (Rabs (B2R x - r - (B2R y - s)) <= d + e) by (apply abs_le; lra); lra. }
  destruct (sub_ok x y Fx Fy) as [E F]; [apply small_range; lra|].
  split; [exact F|]; rewrite E; pose proof (rnd_err _ B A ltac:(lra)) as R; apply abs_le in R; apply abs_le; lra.
Qed.
Lemma mul_near x y r s d e a b B t : nearby x r d -> nearby y s e -> Rabs r <= a -> Rabs s <= b -> (a + d) * (b + e) <= B -> lo <= B <= hi ->
  d * (b + e) + a * e + uu * B <= t -> nearby (f64_mul x y) (r * s) t.
Proof.
  intros [Fx Hx] [Fy Hy] Ha Hb HB Hr Ht.
  assert (Ax : Rabs (B2R x) <= a + d) by (apply abs_le in Hx, Ha; apply abs_le; lra).
  assert (Ay : Rabs (B2R y) <= b + e) by (apply abs_le in Hy, Hb; apply abs_le; lra).
  assert (A : Rabs (B2R x * B2R y) <= B) by (apply Rle_trans with (2 := HB); apply prod_le; assumption).
  destruct (mul_ok x y Fx Fy) as [E F]; [apply small_range; lra|].
  split; [exact F|]; rewrite E; pose proof (rnd_err _ B A ltac:(lra)) as R.
  replace (rnd (B2R x * B2R y) - r * s) with ((rnd (B2R x * B2R y) - B2R x * B2R y) + ((B2R x - r) * B2R y + r * (B2R y - s))) by ring.
  pose proof (prod_le _ _ _ _ Hx Ay) as P1; pose proof (prod_le _ _ _ _ Ha Hy) as P2; apply abs_le in R, P1, P2; apply abs_le; lra.
Qed.

(** a sum has a relative error, whatever its size *)
Lemma sum_relative (x y : F64) : exists e, Rabs e <= uu /\ rnd (B2R x + B2R y) = (B2R x + B2R y) * (1 + e).
Proof.
  destruct (FLT_plus_error_N_ex radix2 (-1074) 53 (fun z => negb (Z.even z)) (B2R x) (B2R y) (fmt_B2R x) (fmt_B2R y)) as (e & He & E).
  exists e; split; [|exact E]; apply Rle_trans with (1 := He).
  assert (U : u_ro radix2 53 = uu) by (unfold u_ro; rewrite uu_bpow; change (- (53) + 1)%Z with (1 + -53)%Z; rewrite bpow_plus; change (bpow radix2 1) with 2; lra).
  rewrite U; unfold uu; lra.
Qed.
Lemma diff_relative (x y : F64) : exists e, Rabs e <= uu /\ rnd (B2R x - B2R y) = (B2R x - B2R y) * (1 + e).
Proof. destruct (sum_relative x (Bopp y)) as (e & He & E); exists e; split; [exact He|]; rewrite B2R_Bopp in E; exact E. Qed.
