(** * C107: scalar normalize in binary64. *)
From Verif Require Import Base Num Serie Spec BaseFacts SerieFacts Functional FunctionalFacts Mathf MathFacts.
From Verif Require Import F64 F64Facts F64Arith F64Round OrderFacts MinMaxFacts Props_Functional Props_MinMax.
From Flocq Require Import Core IEEE754.BinarySingleNaN Relative.
From Coq Require Import Reals Lra Psatz.
Open Scope Z_scope.
#[local] Existing Instance F64N.
Opaque f64_of_Z.

(** ** The reciprocal times the number is one up to the last digit *)
Lemma one_fmt : fmt 1. Proof. apply (fmt_int 1); lia. Qed.
Lemma below_one_fmt : fmt (1 - bpow radix2 (-53)).
Proof.
  replace (1 - bpow radix2 (-53))%R with (F2R (Float radix2 (2 ^ 53 - 1) (-53))).
  - apply (generic_format_FLT radix2 (SpecFloat.emin 53 1024) 53); exists (Float radix2 (2 ^ 53 - 1) (-53)); [reflexivity|reflexivity|unfold SpecFloat.emin; simpl; lia].
  - unfold F2R; cbn [Fnum Fexp]; rewrite minus_IZR; replace (IZR (2 ^ 53)) with (bpow radix2 53) by (simpl; reflexivity); rewrite Rmult_minus_distr_r, <- bpow_plus; simpl (bpow radix2 (53 + -53)); ring.
Qed.
Lemma succ_one : succ radix2 (SpecFloat.fexp 53 1024) 1 = (1 + bpow radix2 (-52))%R.
Proof.
  rewrite succ_eq_pos by lra; f_equal; rewrite ulp_neq_0 by lra; unfold cexp.
  replace (mag radix2 1 : Z) with 1; [reflexivity|]; symmetry; apply mag_unique_pos; simpl; lra.
Qed.
Lemma rnd_below_one x : (x < 1 + bpow radix2 (-53))%R -> (rnd x <= 1)%R.
Proof.
  intros H; apply round_N_le_midp; [exact fexp_valid|exact one_fmt|]; rewrite succ_one.
  replace (bpow radix2 (-52)) with (2 * bpow radix2 (-53))%R by (change (-52) with (1 + -53); rewrite bpow_plus; reflexivity); lra.
Qed.
Lemma reciprocal d : (bpow radix2 (-1022) <= d <= bpow radix2 1022)%R ->
  (1 - bpow radix2 (-53) <= rnd (1 / d) * d < 1 + bpow radix2 (-53))%R /\ (0 < rnd (1 / d) <= bpow radix2 1022)%R.
Proof.
  intros [H1 H2]; pose proof (bpow_gt_0 radix2 (-1022)) as P; assert (D : (0 < d)%R) by lra.
  assert (I : (bpow radix2 (-1022) <= 1 / d <= bpow radix2 1022)%R).
  { split; apply (Rmult_le_reg_r d); try exact D; (replace (1 / d * d)%R with 1%R by (field; lra)).
    - replace 1%R with (bpow radix2 (-1022) * bpow radix2 1022)%R by (rewrite <- bpow_plus; reflexivity); apply Rmult_le_compat_l; lra.
    - replace 1%R with (bpow radix2 1022 * bpow radix2 (-1022))%R by (rewrite <- bpow_plus; reflexivity); apply Rmult_le_compat_l; [apply bpow_ge_0|lra]. }
  assert (E : exists e, (Rabs e < bpow radix2 (-53))%R /\ rnd (1 / d) = (1 / d * (1 + e))%R).
  { change (SpecFloat.fexp 53 1024) with (FLT_exp (SpecFloat.emin 53 1024) 53); rewrite round_FLT_FLX.
    2:{ rewrite Rabs_pos_eq by lra; exact (proj1 I). }
    destruct (relative_error_N_FLX'_ex radix2 53 ltac:(lia) (fun x => negb (Z.even x)) (1 / d)) as (e & He & Ee).
    exists e; split; [|exact Ee]; eapply Rle_lt_trans; [exact He|]; unfold u_ro.
    replace (/ 2 * bpow radix2 (- (53) + 1))%R with (bpow radix2 (-53)) by (change (- (53) + 1) with (1 + -53); rewrite bpow_plus; change (bpow radix2 1) with 2%R; lra).
    pose proof (bpow_gt_0 radix2 (-53)) as U; apply (Rmult_lt_reg_r (1 + bpow radix2 (-53))); [lra|]; unfold Rdiv; rewrite Rmult_assoc, Rinv_l by lra; nra. }
  destruct E as (e & He & Ee).
  assert (M : (rnd (1 / d) * d = 1 + e)%R) by (rewrite Ee; field; lra).
  apply Rabs_lt_inv in He; split; [rewrite M; lra|].
  assert (F1 : fmt (bpow radix2 (-1022))) by (apply generic_format_bpow; vm_compute; congruence).
  assert (F2 : fmt (bpow radix2 1022)) by (apply generic_format_bpow; vm_compute; congruence).
  split; [apply Rlt_le_trans with (bpow radix2 (-1022)); [exact P|rewrite <- (rnd_fmt _ F1); apply rnd_le; lra]|rewrite <- (rnd_fmt _ F2); apply rnd_le; lra].
Qed.

(** ** C107 *)
(** a range of values neither too small nor too large for its reciprocal *)
Definition moderate (xs : list F64) (mn mx : F64) : Prop :=
  @tight F64 F64N mn mx xs /\ Forall (fun x => is_finite x = true) xs /\ (bpow radix2 (-1022) <= B2R mx - B2R mn <= bpow radix2 1022)%R.

Lemma bpow_in_range e r : e < 1024 -> -1022 <= e -> (0 <= r <= bpow radix2 e)%R -> in_range r.
Proof.
  intros He He' Hr; unfold in_range; assert (F : fmt (bpow radix2 e)) by (apply generic_format_bpow; unfold SpecFloat.fexp, SpecFloat.emin; lia).
  rewrite Rabs_pos_eq by (rewrite <- rnd_0; apply rnd_le; lra).
  apply Rle_lt_trans with (bpow radix2 e); [rewrite <- (rnd_fmt _ F); apply rnd_le; lra|apply bpow_lt; exact He].
Qed.

Theorem C107_normalize_partial :
  forall (s : Serie F64) xs mn mx, repr s 1 (col xs) -> moderate xs mn mx ->
  exists f : F64 -> F64, @normalize F64 F64N s = Ok (mk 1 (col (map f xs)) 3) /\
    (forall x, In x xs -> is_finite (f x) = true /\ (0 <= B2R (f x) <= 1)%R) /\
    B2R (f mn) = 0%R /\ (1 - bpow radix2 (-53) <= B2R (f mx) <= 1)%R /\
    (forall x y, In x xs -> In y xs -> (B2R x <= B2R y)%R -> (B2R (f x) <= B2R (f y))%R).
Proof.
  intros s xs mn mx Hs ((Imn & Imx & Hb) & Hf & Hd).
  assert (Hne : xs <> []) by (intros ->; destruct Imn).
  destruct (C62_scalar libm0 s xs Hs Hne Hf) as (mn' & mx' & MM & (In1 & In2 & Hb')); change (@minMax F64 (f64_num libm0) s) with (minMax s) in MM.
  rewrite Forall_forall in Hf; pose proof (Hf _ Imn) as Fn; pose proof (Hf _ Imx) as Fx; pose proof (Hf _ In1) as Fn'; pose proof (Hf _ In2) as Fx'.
  assert (LE : forall a b : F64, is_finite a = true -> is_finite b = true -> n_leb a b = true -> (B2R a <= B2R b)%R) by (intros a b Fa Fb H; apply le_ok; assumption).
  assert (En : B2R mn' = B2R mn) by (apply Rle_antisym; apply LE; auto; [apply Hb'|apply Hb]; assumption).
  assert (Ex : B2R mx' = B2R mx) by (apply Rle_antisym; apply LE; auto; [apply Hb|apply Hb']; assumption).
  assert (Bx : forall x, In x xs -> (B2R mn <= B2R x <= B2R mx)%R) by (intros x Hx; destruct (Hb x Hx); split; apply LE; auto).
  assert (Bmax : bpow radix2 (-1022) = bpow radix2 (-1022)) by reflexivity.
  set (d := f64_sub mx' mn'); set (l := f64_div (f64_of_Z 1) d); set (f := fun v : F64 => f64_mul l (f64_sub v mn')).
  assert (F1 : fmt (bpow radix2 (-1022))) by (apply generic_format_bpow; vm_compute; congruence).
  assert (F2 : fmt (bpow radix2 1022)) by (apply generic_format_bpow; vm_compute; congruence).
  pose proof (bpow_gt_0 radix2 (-1022)) as P0.
  destruct (sub_ok mx' mn' Fx' Fn') as [Dv Df]; [rewrite En, Ex; apply (bpow_in_range 1022); [lia|lia|lra]|]; fold d in Dv, Df; rewrite En, Ex in Dv.
  assert (Dr : (bpow radix2 (-1022) <= B2R d <= bpow radix2 1022)%R) by (rewrite Dv; split; [rewrite <- (rnd_fmt _ F1)|rewrite <- (rnd_fmt _ F2)]; apply rnd_le; lra).
  destruct (reciprocal _ Dr) as [[R1 R2] [R3 R4]].
  destruct (f64_of_Z_correct 1 ltac:(lia)) as (A1 & G1 & _).
  destruct (div_ok (f64_of_Z 1) d G1) as [Lv Lf]; [lra|rewrite A1; unfold in_range; rewrite Rabs_pos_eq by lra; apply Rle_lt_trans with (bpow radix2 1022); [exact R4|apply bpow_lt; lia]|].
  fold l in Lv, Lf; rewrite A1 in Lv; rewrite <- Lv in *.
  (* each value *)
  assert (V : forall x, In x xs -> is_finite (f64_sub x mn') = true /\ B2R (f64_sub x mn') = rnd (B2R x - B2R mn) /\ (0 <= B2R (f64_sub x mn') <= B2R d)%R).
  { intros x Hx; pose proof (Bx x Hx); destruct (sub_ok x mn' (Hf x Hx) Fn') as [Sv Sf]; [rewrite En; apply (bpow_in_range 1022); [lia|lia|lra]|]; rewrite En in Sv; split; [exact Sf|]; split; [exact Sv|].
    rewrite Sv, Dv; split; [rewrite <- rnd_0|]; apply rnd_le; lra. }
  assert (W : forall x, In x xs -> is_finite (f x) = true /\ B2R (f x) = rnd (B2R l * B2R (f64_sub x mn')) /\ (0 <= B2R (f x) <= 1)%R).
  { intros x Hx; destruct (V x Hx) as (Sf & _ & S0 & S1).
    assert (Pr : (0 <= B2R l * B2R (f64_sub x mn') < 1 + bpow radix2 (-53))%R) by (split; [apply Rmult_le_pos; lra|apply Rle_lt_trans with (B2R l * B2R d)%R; [apply Rmult_le_compat_l; lra|exact R2]]).
    assert (Q : (0 <= rnd (B2R l * B2R (f64_sub x mn')) <= 1)%R) by (split; [rewrite <- rnd_0; apply rnd_le; lra|apply rnd_below_one; lra]).
    destruct (mul_ok l (f64_sub x mn') Lf Sf) as [Mv Mf]; [unfold in_range; rewrite Rabs_pos_eq by lra; apply Rle_lt_trans with 1%R; [lra|change 1%R with (bpow radix2 0); apply bpow_lt; lia]|].
    fold (f x) in Mv, Mf; split; [exact Mf|]; split; [exact Mv|]; rewrite Mv; exact Q. }
  exists f; split; [|split; [|split; [|split]]].
  - unfold normalize; rewrite (isValid_repr _ _ _ Hs), (repr_itemSize _ _ _ Hs); cbn [Z.ltb Z.compare negb Z.eqb Pos.eqb].
    rewrite MM; cbn [obind fst snd rd].
    apply (run_map_ss _ s xs); [exact Hs|apply map_length|].
    intros j x y Hj Hy; rewrite nth_error_map, Hj in Hy; injection Hy as <-; reflexivity.
  - intros x Hx; destruct (W x Hx) as (A & _ & B); auto.
  - destruct (W mn Imn) as (_ & B & _); destruct (V mn Imn) as (_ & C & _); rewrite B, C, Rminus_diag_eq, rnd_0, Rmult_0_r, rnd_0 by reflexivity; reflexivity.
  - destruct (W mx Imx) as (_ & B & C); split; [|apply C]; destruct (V mx Imx) as (_ & D & _); rewrite B, D, <- Dv.
    rewrite <- (rnd_fmt _ below_one_fmt); apply rnd_le; exact R1.
  - intros x y Hx Hy H; destruct (W x Hx) as (_ & -> & _); destruct (W y Hy) as (_ & -> & _); destruct (V x Hx) as (_ & -> & _); destruct (V y Hy) as (_ & -> & _).
    apply rnd_le, Rmult_le_compat_l; [lra|]; apply rnd_le; lra.
Qed.
Print Assumptions C107_normalize_partial.

(** the full claim: the smallest value becomes 0, the largest 1, the others between *)
Definition onto_unit (xs ys : list F64) : Prop :=
  Forall (fun y => is_finite y = true /\ (0 <= B2R y <= 1)%R) ys /\
  (exists y, In y ys /\ B2R y = 0%R) /\ (exists y, In y ys /\ B2R y = 1%R).
Definition C107_statement : Prop := forall (s : Serie F64) xs, repr s 1 (col xs) -> Forall (fun x => is_finite x = true) xs ->
  (exists x y, In x xs /\ In y xs /\ B2R x <> B2R y) -> exists ys, @normalize F64 F64N s = Ok (mk 1 (col ys) 3) /\ onto_unit xs ys.
(** the values of a result, as mantissa and exponent *)
Definition shown (o : outcome (Serie F64)) : list SpecFloat.spec_float := match o with Ok s => map B2SF (s_ s) | _ => [] end.

(** {0, 49}: the largest value becomes 1 - 2^-53 *)
Theorem C107_below_one : shown (@normalize F64 F64N (mk 1 (col [#0; #49]) 3)) =
  [SpecFloat.S754_zero false; SpecFloat.S754_finite false 9007199254740991 (-53)].
Proof. vm_compute; reflexivity. Qed.
(** {0, 7 * 2^1021}: the reciprocal is subnormal and the largest value becomes 1 + 2^-51 *)
Theorem C107_above_one : shown (@normalize F64 F64N (mk 1 (col [#0; #(7 * 2 ^ 1021)]) 3)) =
  [SpecFloat.S754_zero false; SpecFloat.S754_finite false 4503599627370498 (-52)].
Proof. vm_compute; reflexivity. Qed.
(** {0, 2^-1074}: the reciprocal is infinite and the smallest value becomes NaN *)

Definition smallest_double : F64 := f64_mul (f64_div #1 #(2 ^ 1000)) (f64_div #1 #(2 ^ 74)).
Theorem C107_tiny_range : shown (@normalize F64 F64N (mk 1 (col [#0; smallest_double]) 3)) =
  [SpecFloat.S754_nan; SpecFloat.S754_infinity false].
Proof. vm_compute; reflexivity. Qed.
(** {-2^1023, 2^1023}: the difference overflows, the reciprocal is 0 and the largest value becomes NaN *)
Theorem C107_huge_range : shown (@normalize F64 F64N (mk 1 (col [#(- 2 ^ 1023); #(2 ^ 1023)]) 3)) =
  [SpecFloat.S754_zero false; SpecFloat.S754_nan].
Proof. vm_compute; reflexivity. Qed.

Lemma B2R_SF (x : F64) : B2R x = SF2R radix2 (B2SF x).
Proof. destruct x; reflexivity. Qed.
Theorem C107_refuted : ~ C107_statement.
Proof.
  intros H; destruct (f64_of_Z_correct 0 ltac:(lia)) as (A0 & F0 & _); destruct (f64_of_Z_correct 49 ltac:(lia)) as (A1 & F1 & _).
  destruct (H (mk 1 (col [#0; #49]) 3) [#0; #49]) as (ys & E & _ & _ & y & Hy & Ey).
  - repr_ex.
  - apply Forall_cons; [exact F0|apply Forall_cons; [exact F1|apply Forall_nil]].
  - exists #0, #49; split; [left; reflexivity|]; split; [right; left; reflexivity|]; rewrite A0, A1; intros X; apply eq_IZR in X; lia.
  - pose proof C107_below_one as S; rewrite E in S; cbn [shown mk s_] in S; rewrite concat_col in S.
    assert (I : In (B2SF y) (map B2SF ys)) by (apply in_map; exact Hy); rewrite S in I; rewrite B2R_SF in Ey.
    destruct I as [I|[I|[]]]; rewrite <- I in Ey; unfold SF2R, F2R in Ey; cbn [Fnum Fexp cond_Zopp bpow] in Ey; [lra|].
    change (Z.pow_pos radix2 53) with 9007199254740992 in Ey; lra.
Qed.
Print Assumptions C107_refuted.
Print Assumptions C107_below_one.
Print Assumptions C107_above_one.
Print Assumptions C107_tiny_range.
Print Assumptions C107_huge_range.

Example C107_example : let xs := [#3; #1; #2] in repr (mk 1 (col xs) 3) 1 (col xs) /\ moderate xs #1 #3 /\
  shown (@normalize F64 F64N (mk 1 (col xs) 3)) = [SpecFloat.S754_finite false 4503599627370496 (-52); SpecFloat.S754_zero false; SpecFloat.S754_finite false 4503599627370496 (-53)].
Proof.
  destruct (f64_of_Z_correct 1 ltac:(lia)) as (A1 & F1 & _); destruct (f64_of_Z_correct 2 ltac:(lia)) as (A2 & F2 & _); destruct (f64_of_Z_correct 3 ltac:(lia)) as (A3 & F3 & _).
  intros xs; split; [repr_ex|]; split; [|vm_compute; reflexivity]; split; [split; [right; left; reflexivity|split; [left; reflexivity|]]|split].
  - intros x Hx; change (Bleb #1 x = true /\ Bleb x #3 = true); destruct Hx as [<-|[<-|[<-|[]]]]; rewrite !le_ok by assumption; rewrite ?A1, ?A2, ?A3; split; apply IZR_le; lia.
  - repeat first [apply Forall_cons | apply Forall_nil]; assumption.
  - rewrite A1, A3; replace (3 - 1)%R with (bpow radix2 1) by (simpl; lra); split; apply bpow_le; lia.
Qed.
