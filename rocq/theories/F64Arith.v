(** * Algebra of binary64: what holds bit for bit. *)
From Verif Require Import Base Num F64 F64Facts.
From Flocq Require Import Core IEEE754.BinarySingleNaN.
From Flocq Require Plus_error.
From Coq Require Import Reals Lra.
Open Scope Z_scope.

(** change of sign *)
Definition f64_opp : F64 -> F64 := Bopp.

Lemma f64_add_comm x y : f64_add x y = f64_add y x.
Proof.
  unfold f64_add; destruct x as [sx|sx| |sx mx ex Hx], y as [sy|sy| |sy my ey Hy]; try reflexivity;
    try (destruct sx, sy; reflexivity).
  unfold Bplus; cbv zeta; rewrite (Z.min_comm ey ex).
  f_equal; unfold Fplus_naive; apply Z.add_comm.
Qed.

Lemma f64_mul_comm x y : f64_mul x y = f64_mul y x.
Proof.
  unfold f64_mul; destruct x as [sx|sx| |sx mx ex Hx], y as [sy|sy| |sy my ey Hy]; try reflexivity;
    try (simpl; rewrite xorb_comm; reflexivity).
  unfold Bmult; apply B2SF_inj; rewrite !B2SF_SF2B.
  rewrite (xorb_comm sy sx), (Pos.mul_comm my mx), (Z.add_comm ey ex); reflexivity.
Qed.

Lemma f64_sub_add x y : f64_sub x y = f64_add x (Bopp y).
Proof. destruct x as [sx|sx| |sx mx ex Hx], y as [sy|sy| |sy my ey Hy]; reflexivity. Qed.

Lemma fmt_B2R (x : F64) : fmt (B2R x).
Proof. apply generic_format_B2R. Qed.
Lemma B2R_lt_emax (x : F64) : (Rabs (B2R x) < bpow radix2 1024)%R.
Proof. apply abs_B2R_lt_emax. Qed.
Lemma rnd_B2R (x : F64) : rnd (B2R x) = B2R x.
Proof. apply round_generic; [apply valid_rnd_N|apply fmt_B2R]. Qed.

(** a finite double that is not a zero, seen by its value *)
Lemma finite_nz s m e H : B2R (B754_finite s m e H : F64) <> 0%R.
Proof. pose proof (is_finite_strict_B2R 53 1024 (B754_finite s m e H)) as Q; intros E.
  assert (is_finite_strict (B754_finite s m e H : F64) = true) by reflexivity.
  simpl in E; apply eq_0_F2R in E; destruct s; discriminate. Qed.

Lemma nan_finite (x : F64) : is_finite x = true -> is_nan x = false.
Proof. destruct x; simpl; congruence. Qed.

Lemma f64_mul_pm1 (u : F64) x : is_finite u = true -> (B2R u = 1%R \/ B2R u = (-1)%R) ->
  f64_mul x u = if Bsign u then Bopp x else x.
Proof.
  intros Fu Ru.
  assert (Su : B2R u = if Bsign u then (-1)%R else 1%R).
  { destruct u as [s|s| |s m e Hu]; simpl in *; try discriminate; try (destruct Ru; lra).
    destruct s; simpl in *.
    - destruct Ru as [Ru|Ru]; [exfalso|exact Ru].
      assert (F2R (Float radix2 (Zneg m) e) < 0)%R by (apply F2R_lt_0; reflexivity). lra.
    - destruct Ru as [Ru|Ru]; [exact Ru|exfalso].
      assert (0 < F2R (Float radix2 (Zpos m) e))%R by (apply F2R_gt_0; reflexivity). lra. }
  destruct x as [sx|sx| |sx mx ex Hx].
  - destruct u; simpl in *; try discriminate; destruct sx; try destruct s; try reflexivity; lra.
  - destruct u; simpl in *; try discriminate; destruct sx; try destruct s; try reflexivity; lra.
  - destruct u; simpl in *; try discriminate; destruct s; reflexivity.
  - pose proof (Bmult_correct 53 1024 F64_prec F64_emax mode_NE (B754_finite sx mx ex Hx) u) as H.
    change (Bmult mode_NE (B754_finite sx mx ex Hx) u) with (f64_mul (B754_finite sx mx ex Hx) u) in H.
    unfold round_mode in H.
    set (x := B754_finite sx mx ex Hx : F64) in *.
    set (t := if Bsign u then Bopp x else x).
    assert (E : (B2R x * B2R u)%R = B2R t) by (unfold t; rewrite Su; destruct (Bsign u); rewrite ?B2R_Bopp; lra).
    rewrite E in H.
    change (round radix2 (SpecFloat.fexp 53 1024) ZnearestE (B2R t)) with (rnd (B2R t)) in H.
    rewrite (rnd_B2R t), Rlt_bool_true in H by apply B2R_lt_emax.
    destruct H as (H1 & H2 & H3).
    rewrite Fu in H2; change (is_finite x) with true in H2; simpl in H2.
    apply B2R_Bsign_inj; auto.
    + unfold t; destruct (Bsign u); reflexivity.
    + rewrite H3 by (apply nan_finite; exact H2).
      unfold t; destruct (Bsign u); simpl; [destruct sx; reflexivity|apply xorb_false_r].
Qed.

Lemma f64_mul_1 x : f64_mul x #1 = x.
Proof.
  destruct (f64_of_Z_correct 1 ltac:(lia)) as (R1 & F1 & S1).
  rewrite f64_mul_pm1; [rewrite S1; reflexivity|exact F1|left; exact R1].
Qed.
Lemma f64_mul_m1 x : f64_mul x #(-1) = Bopp x.
Proof.
  destruct (f64_of_Z_correct (-1) ltac:(lia)) as (R1 & F1 & S1).
  rewrite f64_mul_pm1; [rewrite S1; reflexivity|exact F1|right; exact R1].
Qed.

(** ** Zeros *)
Definition is_zero (x : F64) : Prop := exists s, x = B754_zero s.
Lemma is_zero_B2R x : is_finite x = true -> B2R x = 0%R -> is_zero x.
Proof.
  destruct x as [s|s| |s m e H]; simpl; try discriminate; intros _ E; [exists s; reflexivity|].
  exfalso; exact (finite_nz s m e H E).
Qed.

(** the sign of a finite double that is not zero is that of its value *)
Lemma Bsign_value (x : F64) : is_finite x = true -> B2R x <> 0%R -> Bsign x = Rlt_bool (B2R x) 0.
Proof.
  destruct x as [s|s| |s m e H]; simpl; try discriminate; intros _ Hn; try congruence.
  destruct s; simpl in *.
  - rewrite Rlt_bool_true; [reflexivity|]; apply F2R_lt_0; reflexivity.
  - rewrite Rlt_bool_false; [reflexivity|]; apply Rlt_le, F2R_gt_0; reflexivity.
Qed.
Lemma f64_inj_nz (x y : F64) : is_finite x = true -> is_finite y = true -> B2R x <> 0%R -> B2R x = B2R y -> x = y.
Proof.
  intros Fx Fy Nx E; apply B2R_Bsign_inj; auto.
  rewrite !Bsign_value by (auto; congruence); rewrite E; reflexivity.
Qed.

Lemma f64_add_overflow x y : is_finite x = true -> is_finite y = true ->
  (bpow radix2 1024 <= Rabs (rnd (B2R x + B2R y)))%R ->
  f64_add x y = B754_infinity (Bsign x) /\ Bsign x = Bsign y.
Proof.
  intros Fx Fy Hov; unfold f64_add.
  pose proof (Bplus_correct 53 1024 F64_prec F64_emax mode_NE x y Fx Fy) as H; unfold round_mode in H.
  change (round radix2 (SpecFloat.fexp 53 1024) ZnearestE (B2R x + B2R y)) with (rnd (B2R x + B2R y)) in H.
  rewrite Rlt_bool_false in H by exact Hov; destruct H as [H1 H2]; split; [|exact H2].
  destruct (Bplus mode_NE x y) as [s|s| |s m e Hb]; simpl in H1; try (unfold binary_overflow in H1; simpl in H1; discriminate).
  unfold binary_overflow in H1; simpl in H1; injection H1 as ->; reflexivity.
Qed.

Lemma f64_add_exact x y : is_finite x = true -> is_finite y = true ->
  (Rabs (rnd (B2R x + B2R y)) < bpow radix2 1024)%R ->
  B2R (f64_add x y) = rnd (B2R x + B2R y) /\ is_finite (f64_add x y) = true.
Proof.
  intros Fx Fy Hlt; unfold f64_add.
  pose proof (Bplus_correct 53 1024 F64_prec F64_emax mode_NE x y Fx Fy) as H; unfold round_mode in H.
  change (round radix2 (SpecFloat.fexp 53 1024) ZnearestE (B2R x + B2R y)) with (rnd (B2R x + B2R y)) in H.
  rewrite Rlt_bool_true in H by exact Hlt; tauto.
Qed.

Lemma rnd_opp r : rnd (- r) = (- rnd r)%R.
Proof. apply round_NE_opp. Qed.

(** x - y is zero, or exactly the opposite of y - x *)
Lemma f64_add_opp x y : is_zero (f64_add x y) \/ f64_add (Bopp x) (Bopp y) = Bopp (f64_add x y).
Proof.
  destruct (is_finite x) eqn:Fx; [|destruct x as [|s| |]; try discriminate; right; destruct y as [|t| |]; simpl; try reflexivity;
    destruct s, t; reflexivity].
  destruct (is_finite y) eqn:Fy; [|destruct y as [|t| |]; try discriminate; right; destruct x as [|s| |]; simpl; try reflexivity; discriminate].
  assert (Fx' : is_finite (Bopp x) = true) by (rewrite is_finite_Bopp; exact Fx).
  assert (Fy' : is_finite (Bopp y) = true) by (rewrite is_finite_Bopp; exact Fy).
  assert (E : (B2R (Bopp x) + B2R (Bopp y) = - (B2R x + B2R y))%R) by (rewrite !B2R_Bopp; lra).
  destruct (Rlt_le_dec (Rabs (rnd (B2R x + B2R y))) (bpow radix2 1024)) as [Hlt|Hge].
  - destruct (f64_add_exact x y Fx Fy Hlt) as [H1 H2].
    assert (Hlt' : (Rabs (rnd (B2R (Bopp x) + B2R (Bopp y))) < bpow radix2 1024)%R)
      by (rewrite E, rnd_opp, Rabs_Ropp; exact Hlt).
    destruct (f64_add_exact _ _ Fx' Fy' Hlt') as [H3 H4].
    destruct (Req_dec (B2R (f64_add x y)) 0) as [Z|N]; [left; apply is_zero_B2R; assumption|right].
    apply f64_inj_nz.
    + exact H4.
    + rewrite is_finite_Bopp; exact H2.
    + rewrite H3, E, rnd_opp, <- H1; lra.
    + rewrite H3, E, rnd_opp, <- H1, B2R_Bopp; reflexivity.
  - right.
    destruct (f64_add_overflow x y Fx Fy Hge) as [-> _].
    assert (Hge' : (bpow radix2 1024 <= Rabs (rnd (B2R (Bopp x) + B2R (Bopp y))))%R)
      by (rewrite E, rnd_opp, Rabs_Ropp; exact Hge).
    destruct (f64_add_overflow _ _ Fx' Fy' Hge') as [-> _].
    rewrite Bsign_Bopp by (apply nan_finite; exact Fx); reflexivity.
Qed.

Lemma f64_sub_anti x y : is_zero (f64_sub x y) \/ f64_sub x y = Bopp (f64_sub y x).
Proof.
  rewrite !f64_sub_add; destruct (f64_add_opp y (Bopp x)) as [Z|E].
  - left; rewrite f64_add_comm.
    (* the opposite of a zero sum is a zero sum *)
    destruct (f64_add_opp x (Bopp y)) as [Z'|E']; [rewrite f64_add_comm; exact Z'|].
    rewrite Bopp_involutive, (f64_add_comm (Bopp x)) in E'; destruct Z as [s Z]; rewrite Z in E'.
    exists (negb s); rewrite f64_add_comm, <- (@Bopp_involutive 53 1024 (f64_add x (Bopp y))), <- E'; reflexivity.
  - right; rewrite <- E, Bopp_involutive; apply f64_add_comm.
Qed.

(** ** Equality up to the sign of zero *)
Definition zeq (x y : F64) : Prop := x = y \/ (is_zero x /\ is_zero y).
Lemma zeq_refl x : zeq x x. Proof. left; reflexivity. Qed.
Lemma zeq_sym x y : zeq x y -> zeq y x. Proof. intros [->|[A B]]; [left; reflexivity|right; split; assumption]. Qed.
Lemma zeq_trans x y z : zeq x y -> zeq y z -> zeq x z.
Proof. intros [->|[A B]] [->|[C D]]; unfold zeq; auto. Qed.
Lemma zeq_add_zero x y z : is_zero x -> is_zero y -> zeq (f64_add x z) (f64_add y z).
Proof.
  intros [s ->] [t ->]; destruct z as [u|u| |u m e H].
  - right; split; destruct s, t, u; eexists; reflexivity.
  - left; reflexivity.
  - left; reflexivity.
  - left; reflexivity.
Qed.
Lemma zeq_add x x' y y' : zeq x x' -> zeq y y' -> zeq (f64_add x y) (f64_add x' y').
Proof.
  assert (L : forall a b c, zeq a b -> zeq (f64_add a c) (f64_add b c)).
  { intros a b c [->|[A B]]; [apply zeq_refl|apply zeq_add_zero; assumption]. }
  intros Hx Hy; eapply zeq_trans; [apply L; exact Hx|].
  rewrite (f64_add_comm x' y), (f64_add_comm x' y'); apply L; exact Hy.
Qed.
Lemma zeq_0_add z x : is_zero z -> zeq (f64_add z x) x.
Proof.
  intros [s ->]; destruct x as [u|u| |u m e H]; try (left; reflexivity).
  right; split; [|exists u; reflexivity]; destruct s, u; eexists; reflexivity.
Qed.
Lemma f64_of_0_zero : is_zero #0. Proof. exists false; reflexivity. Qed.

(** ** A difference is zero exactly when the operands are finite and equal *)
Lemma f64_sub_zero x y : is_zero (f64_sub x y) <-> is_finite x = true /\ is_finite y = true /\ B2R x = B2R y.
Proof.
  rewrite f64_sub_add; split.
  - intros [s E].
    destruct (is_finite x) eqn:Fx; [|exfalso; destruct x as [|u| |]; try discriminate; destruct y as [|t| |]; simpl in E; try discriminate;
      destruct u, t; discriminate].
    destruct (is_finite y) eqn:Fy; [|exfalso; destruct y as [|t| |]; try discriminate; destruct x as [|u| |]; simpl in E; discriminate].
    split; [reflexivity|split; [reflexivity|]].
    assert (Fy' : is_finite (Bopp y) = true) by (rewrite is_finite_Bopp; exact Fy).
    destruct (Rlt_le_dec (Rabs (rnd (B2R x + B2R (Bopp y)))) (bpow radix2 1024)) as [Hlt|Hge].
    + destruct (f64_add_exact _ _ Fx Fy' Hlt) as [H1 _]; rewrite E in H1; simpl in H1.
      symmetry in H1; apply Plus_error.round_plus_eq_0 in H1; try apply fmt_B2R; try apply valid_rnd_N; try typeclasses eauto.
      rewrite B2R_Bopp in H1; lra.
    + destruct (f64_add_overflow _ _ Fx Fy' Hge) as [H1 _]; congruence.
  - intros (Fx & Fy & E).
    assert (Fy' : is_finite (Bopp y) = true) by (rewrite is_finite_Bopp; exact Fy).
    assert (E0 : (B2R x + B2R (Bopp y) = 0)%R) by (rewrite B2R_Bopp; lra).
    destruct (f64_add_exact x (Bopp y) Fx Fy') as [H1 H2].
    { rewrite E0, round_0 by apply valid_rnd_N; rewrite Rabs_R0; apply bpow_gt_0. }
    rewrite E0, round_0 in H1 by apply valid_rnd_N; apply is_zero_B2R; assumption.
Qed.
