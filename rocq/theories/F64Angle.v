(** * binary64: the angle of a rotation, for an accurate mathematical library. *)
From Coq Require Import Reals Ratan Lra Psatz.
From Flocq Require Import Core Relative Mult_error IEEE754.BinarySingleNaN.
From Verif Require Import Base Num F64 F64Facts F64Arith F64Round Eigen RNum JacobiFacts Props_Constants.
From Verif Require Import F64Error.
Open Scope R_scope.

(** ** The double nearest to a real number *)
Definition f64_of_R (r : R) : F64 :=
  binary_normalize 53 1024 _ _ mode_NE (ZnearestE (scaled_mantissa radix2 (SpecFloat.fexp 53 1024) r)) (cexp radix2 (SpecFloat.fexp 53 1024) r) false.
Lemma f64_of_R_ok r : Rabs r <= hi -> B2R (f64_of_R r) = rnd r /\ is_finite (f64_of_R r) = true.
Proof.
  intros H; pose proof (binary_normalize_correct 53 1024 F64_prec F64_emax mode_NE (ZnearestE (scaled_mantissa radix2 (SpecFloat.fexp 53 1024) r)) (cexp radix2 (SpecFloat.fexp 53 1024) r) false) as C.
  cbv zeta in C; unfold round_mode in C.
  change (F2R {| Fnum := ZnearestE (scaled_mantissa radix2 (SpecFloat.fexp 53 1024) r); Fexp := cexp radix2 (SpecFloat.fexp 53 1024) r |}) with (rnd r) in C.
  change (round radix2 (SpecFloat.fexp 53 1024) ZnearestE (rnd r)) with (rnd (rnd r)) in C.
  rewrite (rnd_fmt (rnd r) (fmt_rnd r)) in C; rewrite Rlt_bool_true in C by (apply small_range; exact H).
  unfold f64_of_R; split; apply C.
Qed.
Lemma nearest_err r x : Rabs r <= 1 -> nearest r x -> Rabs (B2R x - r) <= uu.
Proof.
  intros H [_ N]; pose proof lo_hi as (_ & L & U); destruct (f64_of_R_ok r ltac:(lra)) as [E F].
  apply Rle_trans with (1 := N _ F); rewrite E; rewrite <- (Rmult_1_r uu); apply rnd_err; assumption.
Qed.

(** ** A library whose results are less than one unit in the last place of 1 away *)
Definition accurate (L : Libm) : Prop :=
  (forall x, is_finite x = true -> Rabs (B2R x) <= 1 -> nearby (m_sin L x) (sin (B2R x)) (2 * uu)) /\
  (forall x, is_finite x = true -> Rabs (B2R x) <= 1 -> nearby (m_cos L x) (cos (B2R x)) (2 * uu)) /\
  (forall x, is_finite x = true -> nearby (m_atan L x) (atan (B2R x)) (2 * uu)) /\
  nearby (m_atan L (B754_infinity false)) (PI / 2) (2 * uu) /\ nearby (m_atan L (B754_infinity true)) (- (PI / 2)) (2 * uu).

(** such libraries exist: the correctly rounded one *)
Definition libm_nearest : Libm := {|
  m_sin := fun x => f64_of_R (sin (B2R x)); m_cos := fun x => f64_of_R (cos (B2R x));
  m_atan := fun x => match x with B754_infinity s => f64_of_R (if s then - (PI / 2) else PI / 2) | _ => f64_of_R (atan (B2R x)) end |}.
Lemma of_R_near r : Rabs r <= 2 -> nearby (f64_of_R r) r (2 * uu).
Proof.
  intros H; pose proof lo_hi as (_ & L & U).
  assert (2 <= hi) by (change 2 with (bpow radix2 1); apply bpow_le; lia).
  destruct (f64_of_R_ok r ltac:(lra)) as [E F]; split; [exact F|]; rewrite E, Rmult_comm, Rmult_comm; rewrite Rmult_comm; apply rnd_err; lra.
Qed.
Lemma sin_abs x : Rabs (sin x) <= 1.
Proof. pose proof (SIN_bound x); apply abs_le; lra. Qed.
Lemma cos_abs x : Rabs (cos x) <= 1.
Proof. pose proof (COS_bound x); apply abs_le; lra. Qed.
Lemma atan_abs x : Rabs (atan x) < PI / 2.
Proof. destruct (atan_bound x); apply Rabs_def1; lra. Qed.
Lemma pi_below : PI / 2 <= 1571 / 1000.
Proof. destruct pi_bounds as [_ H]; revert H; unfold pi_num; change (bpow radix2 (-48)) with (/ 281474976710656); change (bpow radix2 (-55)) with (/ 36028797018963968); lra. Qed.
Lemma libm_nearest_ok : accurate libm_nearest.
Proof.
  pose proof pi_below as P; pose proof PI_RGT_0 as P0.
  split; [intros; apply of_R_near; pose proof (sin_abs (B2R x)); lra|]; split; [intros; apply of_R_near; pose proof (cos_abs (B2R x)); lra|].
  split; [|split; apply of_R_near; apply abs_le; lra].
  intros x F; pose proof (atan_abs (B2R x)) as A; cbn [m_atan libm_nearest]; destruct x; try discriminate F; apply of_R_near; lra.
Qed.

(** ** Lipschitz bounds *)
Lemma sin_le_abs y : Rabs (sin y) <= Rabs y.
Proof.
  assert (G : forall z, 0 <= z -> Rabs (sin z) <= z).
  { intros z [H|<-]; [|rewrite sin_0, Rabs_R0; lra].
    pose proof (sin_lt_x z H) as U; apply abs_le; split; [|lra].
    destruct (Rle_or_lt z PI) as [Hp|Hp]; [pose proof (sin_ge_0 z ltac:(lra) Hp); lra|pose proof (SIN_bound z); pose proof PI_RGT_0; pose proof (PI2_1); lra]. }
  destruct (Rle_or_lt 0 y) as [H|H]; [rewrite (Rabs_pos_eq y) by exact H; apply G, H|].
  rewrite <- (Ropp_involutive y) at 1; rewrite sin_neg, Rabs_Ropp, (Rabs_left y) by exact H; apply G; lra.
Qed.
Lemma half_abs x : Rabs (x / 2) = Rabs x / 2.
Proof. unfold Rdiv; rewrite Rabs_mult, (Rabs_pos_eq (/ 2)) by lra; reflexivity. Qed.
Lemma sin_lip a b : Rabs (sin a - sin b) <= Rabs (a - b).
Proof.
  rewrite form4, 2!Rabs_mult, (Rabs_pos_eq 2) by lra; pose proof (cos_abs ((a + b) / 2)) as C; pose proof (sin_le_abs ((a - b) / 2)) as S.
  rewrite half_abs in S; pose proof (Rabs_pos (sin ((a - b) / 2))); pose proof (Rabs_pos (cos ((a + b) / 2))); nra.
Qed.
Lemma cos_lip a b : Rabs (cos a - cos b) <= Rabs (a - b).
Proof.
  rewrite form2, 2!Rabs_mult, (Rabs_left (-2)) by lra; pose proof (sin_abs ((a + b) / 2)) as C; pose proof (sin_le_abs ((a - b) / 2)) as S.
  rewrite half_abs in S; pose proof (Rabs_pos (sin ((a - b) / 2))); pose proof (Rabs_pos (sin ((a + b) / 2))); nra.
Qed.
Lemma atan_mean a b : exists c, Rmin a b <= c <= Rmax a b /\ atan b - atan a = (b - a) / (1 + c * c).
Proof.
  destruct (Rtotal_order a b) as [H|[->|H]].
  - destruct (MVT_cor2 atan (fun x => / (1 + x ^ 2)) a b H) as (c & E & Hc); [intros; apply derivable_pt_lim_atan|].
    exists c; rewrite Rmin_left, Rmax_right by lra; split; [lra|]; rewrite E; unfold Rdiv; rewrite Rmult_comm; do 3 f_equal; ring.
  - exists b; rewrite Rmin_left, Rmax_left by lra; split; [lra|]; unfold Rdiv; ring_simplify; ring.
  - destruct (MVT_cor2 atan (fun x => / (1 + x ^ 2)) b a H) as (c & E & Hc); [intros; apply derivable_pt_lim_atan|].
    exists c; rewrite Rmin_right, Rmax_left by lra; split; [lra|].
    replace (atan b - atan a) with (- (atan a - atan b)) by ring; rewrite E; unfold Rdiv; replace (1 + c * c) with (1 + c ^ 2) by ring; ring.
Qed.
Lemma over_square x c : Rabs (x / (1 + c * c)) = Rabs x / (1 + c * c).
Proof.
  assert (P : 0 < 1 + c * c) by (pose proof (Rle_0_sqr c) as Q; unfold Rsqr in Q; lra).
  unfold Rdiv; rewrite Rabs_mult, (Rabs_pos_eq (/ _)); [reflexivity|left; apply Rinv_0_lt_compat, P].
Qed.
Lemma atan_lip a b : Rabs (atan b - atan a) <= Rabs (b - a).
Proof.
  destruct (atan_mean a b) as (c & _ & ->); rewrite over_square.
  assert (P : 1 <= 1 + c * c) by (pose proof (Rle_0_sqr c) as Q; unfold Rsqr in Q; lra).
  apply (Rmult_le_reg_r (1 + c * c)); [lra|]; unfold Rdiv; rewrite Rmult_assoc, Rinv_l, Rmult_1_r by lra.
  rewrite <- (Rmult_1_r (Rabs (b - a))) at 1; apply Rmult_le_compat_l; [apply Rabs_pos|exact P].
Qed.
Lemma atan_scale t d : Rabs d <= / 2 -> Rabs (atan (t * (1 + d)) - atan t) <= Rabs d.
Proof.
  intros Hd; destruct (atan_mean t (t * (1 + d))) as (c & Hc & ->); rewrite over_square.
  assert (P : 1 <= 1 + c * c) by (pose proof (Rle_0_sqr c) as Q; unfold Rsqr in Q; lra).
  apply (Rmult_le_reg_r (1 + c * c)); [lra|]; unfold Rdiv; rewrite Rmult_assoc, Rinv_l, Rmult_1_r by lra.
  replace (t * (1 + d) - t) with (d * t) by ring; rewrite Rabs_mult; apply Rmult_le_compat_l; [apply Rabs_pos|].
  assert (Q : Rabs t <= 2 * Rabs c).
  { apply abs_le in Hd; destruct (Rle_or_lt 0 t) as [Ht|Ht].
    - assert (t / 2 <= c) by (apply Rle_trans with (2 := proj1 Hc); apply Rmin_glb; nra).
      rewrite !Rabs_pos_eq by lra; lra.
    - assert (c <= t / 2) by (apply Rle_trans with (1 := proj2 Hc); apply Rmax_lub; nra).
      rewrite !Rabs_left1 by lra; lra. }
  apply Rle_trans with (1 := Q); replace (c * c) with (Rabs c * Rabs c) by (rewrite <- Rabs_mult; apply Rabs_pos_eq, Rle_0_sqr).
  pose proof (Rle_0_sqr (Rabs c - 1)) as S; unfold Rsqr in S; lra.
Qed.

(** ** The quotient of the angle *)
Lemma sign_of (x : F64) : is_finite x = true -> B2R x <> 0 -> Bsign x = true <-> B2R x < 0.
Proof.
  destruct x as [s|s| |s m e H]; intros F N; try discriminate F; [exfalso; apply N; reflexivity|].
  cbn [Bsign B2R]; destruct s; cbn [cond_Zopp] in *; split; intros A; try reflexivity; try discriminate A.
  - apply F2R_lt_0; cbn; lia.
  - exfalso; revert A; apply Rle_not_lt, F2R_ge_0; cbn; lia.
Qed.
Lemma atan_far T : bpow radix2 1022 <= T -> Rabs (atan T - PI / 2) <= uu.
Proof.
  intros H; pose proof (bpow_gt_0 radix2 1022) as P; pose proof (atan_inv T ltac:(lra)) as E.
  replace (atan T - PI / 2) with (- (atan (/ T) - atan 0)) by (rewrite E, atan_0; ring); rewrite Rabs_Ropp.
  apply Rle_trans with (1 := atan_lip 0 (/ T)); rewrite Rminus_0_r, Rabs_pos_eq by (left; apply Rinv_0_lt_compat; lra).
  apply Rle_trans with (/ bpow radix2 1022); [apply Rinv_le; assumption|]; rewrite <- bpow_opp, uu_bpow; apply bpow_le; lia.
Qed.

Lemma atan_quotient L (b d : F64) D e : accurate L -> is_finite b = true -> is_finite d = true -> D <> 0 -> Rabs e <= uu -> B2R d = D * (1 + e) ->
  nearby (m_atan L (f64_div b d)) (atan (B2R b / D)) (5 * uu).
Proof.
  intros (_ & _ & At & Ai & Ai') Fb Fd HD He Ed.
  assert (U : 0 < uu < / 1000000) by (unfold uu; lra).
  assert (P1 : 0 < 1 + e) by (apply abs_le in He; lra).
  assert (Nd : B2R d <> 0) by (rewrite Ed; apply Rmult_integral_contrapositive_currified; lra).
  set (T := B2R b / D); assert (ET : B2R b / B2R d = T / (1 + e)) by (unfold T; rewrite Ed; field; split; lra).
  pose proof (Bdiv_correct 53 1024 F64_prec F64_emax mode_NE b d Nd) as C; unfold round_mode in C; fold (f64_div b d) in C.
  change (round radix2 (SpecFloat.fexp 53 1024) ZnearestE (B2R b / B2R d)) with (rnd (B2R b / B2R d)) in C.
  destruct (Rlt_bool_spec (Rabs (rnd (B2R b / B2R d))) (bpow radix2 1024)) as [Hr|Hr].
  - destruct C as (E & F & _); rewrite Fb in F; destruct (At _ F) as [FA HA]; split; [exact FA|].
    rewrite E in HA.
    destruct (error_N_FLT radix2 (-1074) 53 ltac:(lia) (fun z => negb (Z.even z)) (B2R b / B2R d)) as (e2 & h & He2 & Hh & _ & E2).
    change (round radix2 (FLT_exp (-1074) 53) (Znearest (fun z => negb (Z.even z))) (B2R b / B2R d)) with (rnd (B2R b / B2R d)) in E2.
    assert (U2 : / 2 * bpow radix2 (- (53) + 1) = uu) by (rewrite uu_bpow; change (- (53) + 1)%Z with (1 + -53)%Z; rewrite bpow_plus; change (bpow radix2 1) with 2; lra).
    rewrite U2 in He2.
    assert (Hh' : Rabs h <= uu / 10).
    { apply Rle_trans with (1 := Hh); apply Rle_trans with (bpow radix2 (-57)); [|rewrite uu_bpow; change (-53)%Z with (4 + -57)%Z; rewrite bpow_plus; change (bpow radix2 4) with 16; pose proof (bpow_gt_0 radix2 (-57)); lra].
      apply Rle_trans with (bpow radix2 (-1074)); [pose proof (bpow_gt_0 radix2 (-1074)); lra|apply bpow_le; lia]. }
    set (k := (1 + e2) / (1 + e) - 1).
    assert (Ek : rnd (B2R b / B2R d) = T * (1 + k) + h) by (rewrite E2, ET; unfold k; field; lra).
    assert (Hk : Rabs k <= 21 / 10 * uu).
    { assert (k * (1 + e) = e2 - e) by (unfold k; field; lra); apply abs_le in He, He2; apply abs_le; split; nra. }
    assert (A1 := atan_lip (T * (1 + k)) (T * (1 + k) + h)); assert (A2 := atan_scale T k ltac:(lra)).
    replace (T * (1 + k) + h - T * (1 + k)) with h in A1 by ring.
    rewrite Ek in HA; apply abs_le in HA; assert (H1 := Rle_trans _ _ _ A1 Hh'); assert (H2 := Rle_trans _ _ _ A2 Hk); apply abs_le in H1, H2; apply abs_le; lra.
  - assert (Hb : bpow radix2 1023 <= Rabs (B2R b / B2R d)).
    { apply Rnot_lt_le; intros Hlt; apply Rle_not_lt in Hr; apply Hr; apply Rle_lt_trans with (bpow radix2 1023); [|apply bpow_lt; lia].
      apply abs_round_le_generic; [exact fexp_valid|apply valid_rnd_N|apply generic_format_bpow; unfold SpecFloat.fexp, SpecFloat.emin; lia|lra]. }
    change (binary_overflow 53 1024 mode_NE (xorb (Bsign b) (Bsign d))) with (SpecFloat.S754_infinity (xorb (Bsign b) (Bsign d))) in C.
    assert (EI : f64_div b d = B754_infinity (xorb (Bsign b) (Bsign d))) by (destruct (f64_div b d); try discriminate C; injection C as ->; reflexivity).
    rewrite EI; rewrite ET in Hb.
    assert (E23 : bpow radix2 1023 = 2 * bpow radix2 1022) by (change 1023%Z with (1 + 1022)%Z; rewrite bpow_plus; reflexivity).
    pose proof (bpow_gt_0 radix2 1022) as P22.
    assert (Nb : B2R b <> 0).
    { intros Z0; revert Hb; unfold T; rewrite Z0; unfold Rdiv; rewrite !Rmult_0_l, Rabs_R0; lra. }
    pose proof (sign_of b Fb Nb) as Sb; pose proof (sign_of d Fd Nd) as Sd.
    assert (ST : (xorb (Bsign b) (Bsign d) = true <-> T / (1 + e) < 0)).
    { rewrite <- ET; destruct (Bsign b), (Bsign d); cbn [xorb].
      - split; [discriminate|]; intros Hn; exfalso; revert Hn; apply Rle_not_lt; pose proof (proj1 Sb eq_refl); pose proof (proj1 Sd eq_refl).
        replace (B2R b / B2R d) with (- B2R b / - B2R d) by (field; lra); left; apply Rdiv_lt_0_compat; lra.
      - split; [|reflexivity]; intros _; pose proof (proj1 Sb eq_refl); assert (0 < B2R d) by (destruct (Rtotal_order (B2R d) 0) as [X|[X|X]]; [apply Sd in X; discriminate X|contradiction|exact X]).
        replace (B2R b / B2R d) with (- (- B2R b / B2R d)) by (field; lra); assert (0 < - B2R b / B2R d) by (apply Rdiv_lt_0_compat; lra); lra.
      - split; [|reflexivity]; intros _; pose proof (proj1 Sd eq_refl); assert (0 < B2R b) by (destruct (Rtotal_order (B2R b) 0) as [X|[X|X]]; [apply Sb in X; discriminate X|contradiction|exact X]).
        replace (B2R b / B2R d) with (- (B2R b / - B2R d)) by (field; lra); assert (0 < B2R b / - B2R d) by (apply Rdiv_lt_0_compat; lra); lra.
      - split; [discriminate|]; intros Hn; exfalso; revert Hn; apply Rle_not_lt.
        assert (0 < B2R b) by (destruct (Rtotal_order (B2R b) 0) as [X|[X|X]]; [apply Sb in X; discriminate X|contradiction|exact X]).
        assert (0 < B2R d) by (destruct (Rtotal_order (B2R d) 0) as [X|[X|X]]; [apply Sd in X; discriminate X|contradiction|exact X]).
        left; apply Rdiv_lt_0_compat; lra. }
    assert (Et : T = T / (1 + e) * (1 + e)) by (field; lra).
    set (r := T / (1 + e)) in *; apply abs_le in He.
    destruct (xorb (Bsign b) (Bsign d)).
    + pose proof (proj1 ST eq_refl) as Hn; rewrite Rabs_left in Hb by exact Hn.
      assert (FT : bpow radix2 1022 <= - T) by (rewrite Et; nra).
      pose proof (atan_far (- T) FT) as A; rewrite atan_opp in A.
      destruct Ai' as [F HA]; split; [exact F|]; apply abs_le in A, HA; apply abs_le; lra.
    + assert (Hn : 0 <= r) by (apply Rnot_lt_le; intros X; apply ST in X; discriminate X); rewrite Rabs_pos_eq in Hb by exact Hn.
      assert (FT : bpow radix2 1022 <= T) by (rewrite Et; nra).
      pose proof (atan_far T FT) as A.
      destruct Ai as [F HA]; split; [exact F|]; apply abs_le in A, HA; apply abs_le; lra.
Qed.

(** ** The angle *)
Lemma angle_near L (b p q : F64) B : accurate L -> is_finite b = true -> is_finite p = true -> is_finite q = true ->
  Rabs (B2R b) <= B -> Rabs (B2R p) <= B -> Rabs (B2R q) <= B -> B <= hi / 4 ->
  let x := @angle F64 (f64_num L) b p q in let X := B2R x in
  is_finite x = true /\ Rabs X <= 1 /\
  Rabs (sin X * cos X * (B2R p - B2R q) + (cos X * cos X - sin X * sin X) * B2R b) <= 16 * uu * B.
Proof.
  intros Acc Fb Fp Fq Hb Hp Hq HB; cbv zeta.
  assert (U : 0 < uu < / 1000000) by (unfold uu; lra).
  pose proof lo_hi as (_ & _ & H1); pose proof pi_below as PB; pose proof PI_RGT_0 as P0.
  assert (B0 : 0 <= B) by (apply Rle_trans with (2 := Hb), Rabs_pos).
  (* it is enough to be near an angle that clears the entry *)
  assert (Fin : forall (x : F64) th, is_finite x = true -> Rabs (B2R x - th) <= 4 * uu -> Rabs th <= PI / 4 ->
    sin th * cos th * (B2R p - B2R q) + (cos th * cos th - sin th * sin th) * B2R b = 0 ->
    is_finite x = true /\ Rabs (B2R x) <= 1 /\
    Rabs (sin (B2R x) * cos (B2R x) * (B2R p - B2R q) + (cos (B2R x) * cos (B2R x) - sin (B2R x) * sin (B2R x)) * B2R b) <= 16 * uu * B).
  { intros x th Fx Hx Ht E0; split; [exact Fx|split; [apply abs_le in Hx, Ht; apply abs_le; lra|]]; set (X := B2R x) in *.
    assert (D2 : forall y, sin y * cos y = sin (2 * y) / 2) by (intros y; rewrite sin_2a; field).
    assert (C2 : forall y, cos y * cos y - sin y * sin y = cos (2 * y)) by (intros y; rewrite cos_2a; reflexivity).
    rewrite D2, C2; rewrite D2, C2 in E0.
    pose proof (sin_lip (2 * X) (2 * th)) as S; pose proof (cos_lip (2 * X) (2 * th)) as C.
    replace (2 * X - 2 * th) with (2 * (X - th)) in S, C by ring; rewrite Rabs_mult, (Rabs_pos_eq 2) in S, C by lra.
    assert (S' : Rabs (sin (2 * X) - sin (2 * th)) <= 8 * uu) by lra; assert (C' : Rabs (cos (2 * X) - cos (2 * th)) <= 8 * uu) by lra.
    replace (sin (2 * X) / 2 * (B2R p - B2R q) + cos (2 * X) * B2R b) with
      ((sin (2 * X) - sin (2 * th)) * ((B2R p - B2R q) / 2) + (cos (2 * X) - cos (2 * th)) * B2R b) by lra.
    assert (Hd : Rabs ((B2R p - B2R q) / 2) <= B) by (apply abs_le in Hp, Hq; apply abs_le; lra).
    pose proof (prod_le _ _ _ _ S' Hd) as Q1; pose proof (prod_le _ _ _ _ C' Hb) as Q2; apply abs_le in Q1, Q2; apply abs_le; lra. }
  unfold angle; change (@n_eqb F64 (f64_num L) (@n_sub F64 (f64_num L) p q) (@n_of_Z F64 (f64_num L) 0)) with (Beqb (f64_sub p q) #0).
  assert (Rd : in_range (B2R p - B2R q)) by (apply small_range; apply abs_le in Hp, Hq; apply abs_le; lra).
  destruct (sub_ok p q Fp Fq Rd) as [Ed Fd]; destruct zero_B2R as [Z0 FZ].
  destruct (diff_relative p q) as (e & He & Ee).
  destruct (Beqb (f64_sub p q) #0) eqn:Q.
  - assert (N := proj2 (C132_pi L) b p q Q); unfold angle in N.
    change (@n_eqb F64 (f64_num L) (@n_sub F64 (f64_num L) p q) (@n_of_Z F64 (f64_num L) 0)) with (Beqb (f64_sub p q) #0) in N; rewrite Q in N.
    rewrite Beqb_correct in Q by assumption; rewrite Z0, Ed, Ee in Q.
    assert (Epq : B2R p - B2R q = 0).
    { destruct (Req_bool_spec ((B2R p - B2R q) * (1 + e)) 0) as [X|]; [|discriminate Q]; apply Rmult_integral in X; destruct X as [X|X]; [exact X|apply abs_le in He; lra]. }
    apply (Fin _ (- PI / 4)); [apply N| | |].
    + apply Rle_trans with uu; [|lra]; apply nearest_err; [apply abs_le; lra|exact N].
    + apply abs_le; lra.
    + rewrite Epq; replace (- PI / 4) with (- (PI / 4)) by field; rewrite cos_neg, sin_neg, sin_PI4, cos_PI4; ring.
  - rewrite Beqb_correct in Q by assumption; rewrite Z0, Ed, Ee in Q.
    assert (Npq : B2R p - B2R q <> 0).
    { intros X; rewrite X, Rmult_0_l, Req_bool_true in Q by reflexivity; discriminate Q. }
    change (@n_div F64 (f64_num L) (@n_opp F64 (f64_num L) (@n_atan F64 (f64_num L) (@n_div F64 (f64_num L) (@n_add F64 (f64_num L) b b) (@n_sub F64 (f64_num L) p q)))) (@n_of_Z F64 (f64_num L) 2))
      with (f64_div (Bopp (m_atan L (f64_div (f64_add b b) (f64_sub p q)))) #2).
    assert (Rb : in_range (B2R b + B2R b)) by (apply small_range; apply abs_le in Hb; apply abs_le; lra).
    destruct (add_ok b b Fb Fb Rb) as [Eb Fbb].
    assert (Eb' : B2R (f64_add b b) = B2R b + B2R b).
    { rewrite Eb; apply rnd_fmt; replace (B2R b + B2R b) with (B2R b * bpow radix2 1) by (change (bpow radix2 1) with 2; ring).
      destruct b as [s|s| |s m e0 H0]; try discriminate Fb; [cbn [B2R]; rewrite Rmult_0_l; apply generic_format_0|].
      apply (mult_bpow_pos_exact_FLT radix2 (-1074) 53); [apply fmt_B2R|lia]. }
    rewrite Ee in Ed.
    destruct (atan_quotient L (f64_add b b) (f64_sub p q) (B2R p - B2R q) e Acc Fbb Fd Npq He Ed) as [FA HA].
    rewrite Eb' in HA; set (T := (B2R b + B2R b) / (B2R p - B2R q)) in *; set (y := m_atan L _) in *.
    destruct (f64_of_Z_correct 2 ltac:(lia)) as (E2 & F2 & _).
    assert (FO : is_finite (Bopp y) = true) by (rewrite is_finite_Bopp; exact FA).
    pose proof (atan_abs T) as AT; assert (HY : Rabs (- B2R y / 2) <= 1) by (apply Rlt_le, abs_le in AT; apply abs_le in HA; apply abs_le; lra).
    destruct (div_ok (Bopp y) #2 FO) as [E3 F3]; [rewrite E2; lra|rewrite B2R_Bopp, E2; apply small_range; lra|].
    rewrite B2R_Bopp, E2 in E3.
    apply (Fin _ (- atan T / 2) F3).
    + rewrite E3; assert (R := rnd_err (- B2R y / 2) 1 HY (proj1 (proj2 lo_hi))); apply abs_le in R, HA; apply abs_le; lra.
    + apply Rlt_le, abs_le in AT; apply abs_le; lra.
    + assert (G := JacobiFacts.angle_zero (B2R b) (B2R p) (B2R q)); cbv zeta in G; revert G; unfold angle; cbn [n_eqb n_sub n_of_Z n_div n_opp n_atan n_mul n_add n_pi RNum.r_num].
      rewrite Req_bool_false by exact Npq; fold T; intros G; exact G.
Qed.
