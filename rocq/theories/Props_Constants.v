(** * C132: the constants in the code as doubles. *)
From Coq Require Import Reals Machin Ratan QArith Qreals Lra.
From Verif Require Import Base Num Serie Spec F64 F64Facts F64Arith F64Round Algebra Mathf Eigen.
From Verif Require Import SerieFacts Props_Functional Props_MultDiv LinSpec Props_F64Inv.
From Flocq Require Import Core.Core IEEE754.BinarySingleNaN.
Open Scope Z_scope.

(** ** pi between two rationals, by Machin's formula in the standard library *)
Definition q_term (n : nat) : Q :=
  let e := Z.of_nat (2 * n + 1) in
  ((if Nat.even n then 1 else -1) * (Qmake 2 (Z.to_pos (3 ^ e * e)) + Qmake 1 (Z.to_pos (7 ^ e * e))))%Q.
Fixpoint q_sum (n : nat) : Q := match n with O => q_term 0 | S m => Qred (q_sum m + q_term (S m)) end.

Lemma sign_even n : ((-1) ^ n = if Nat.even n then 1 else -1)%R.
Proof.
  assert (G : forall n0, ((-1) ^ n0 = if Nat.even n0 then 1 else -1)%R /\ ((-1) ^ (S n0) = if Nat.even (S n0) then 1 else -1)%R).
  { induction n0 as [|m [IH1 IH2]]; [split; cbn -[IZR]; lra|]; split; [exact IH2|].
    change (Nat.even (S (S m))) with (Nat.even m); change ((-1) ^ S (S m))%R with (-1 * (-1 * (-1) ^ m))%R; rewrite IH1; destruct (Nat.even m); lra. }
  apply G.
Qed.
Lemma atan_term b n : 0 < b -> (Ratan_seq (/ IZR b) n = / IZR (b ^ Z.of_nat (2 * n + 1) * Z.of_nat (2 * n + 1)))%R.
Proof.
  intros Hb; unfold Ratan_seq; rewrite mult_IZR, <- INR_IZR_INZ, <- pow_IZR.
  assert (IZR b <> 0)%R by (apply not_0_IZR; lia).
  rewrite pow_inv, Rinv_mult; reflexivity.
Qed.
Lemma q_term_ok n : Q2R (q_term n) = tg_alt PI_2_3_7_tg n.
Proof.
  unfold q_term, tg_alt, PI_2_3_7_tg; rewrite sign_even; cbv zeta.
  rewrite (atan_term 3 n ltac:(lia)), (atan_term 7 n ltac:(lia)).
  set (e := Z.of_nat (2 * n + 1)); assert (He : 0 < e) by (unfold e; lia).
  assert (P3 : 0 < 3 ^ e * e) by (apply Z.mul_pos_pos; [apply Z.pow_pos_nonneg; lia|lia]).
  assert (P7 : 0 < 7 ^ e * e) by (apply Z.mul_pos_pos; [apply Z.pow_pos_nonneg; lia|lia]).
  rewrite Q2R_mult, Q2R_plus; f_equal; [destruct (Nat.even n); unfold Q2R; cbn; lra|].
  unfold Q2R; cbn [Qnum Qden]; rewrite !Z2Pos.id by assumption; lra.
Qed.
Lemma q_sum_ok n : Q2R (q_sum n) = sum_f_R0 (tg_alt PI_2_3_7_tg) n.
Proof.
  induction n as [|n IH]; [apply q_term_ok|]; cbn [q_sum sum_f_R0].
  rewrite (Qeq_eqR _ _ (Qred_correct _)), Q2R_plus, IH, q_term_ok; reflexivity.
Qed.
Lemma pi_between (lo hi : Q) : Qle_bool lo (4 * q_sum 21) = true -> Qle_bool (4 * q_sum 20) hi = true -> (Q2R lo <= PI <= Q2R hi)%R.
Proof.
  intros H1 H2; apply Qle_bool_iff, Qle_Rle in H1; apply Qle_bool_iff, Qle_Rle in H2; rewrite Q2R_mult, q_sum_ok in H1, H2.
  pose proof (PI_2_3_7_ineq 10) as [A B]; change (S (2 * 10)) with 21%nat in A; change (2 * 10)%nat with 20%nat in B.
  replace (Q2R 4) with 4%R in H1, H2 by (unfold Q2R; cbn; lra); lra.
Qed.

(** ** M_PI *)
Lemma pi_pow e : 0 <= e <= 100 -> B2R (f64_of_Z (2 ^ e)) = bpow radix2 e /\ is_finite (f64_of_Z (2 ^ e)) = true.
Proof.
  intros He; pose proof (binary_normalize_correct 53 1024 F64_prec F64_emax mode_NE (2 ^ e) 0 false) as C.
  assert (E : F2R (Float radix2 (2 ^ e) 0) = bpow radix2 e) by (unfold F2R; cbn [Fnum Fexp]; rewrite Rmult_1_r; change 2 with (radix_val radix2) at 1; apply IZR_Zpower; lia).
  assert (F : fmt (bpow radix2 e)) by (apply generic_format_bpow; unfold SpecFloat.fexp, SpecFloat.emin; lia).
  cbn zeta in C; unfold round_mode in C; rewrite E, (rnd_fmt _ F), Rabs_pos_eq in C by apply bpow_ge_0.
  rewrite Rlt_bool_true in C by (apply bpow_lt; lia); split; apply C.
Qed.
Lemma fmt_dyadic m e : Z.abs m < 2 ^ 53 -> -1074 <= e -> fmt (IZR m * bpow radix2 e).
Proof.
  intros Hm He; apply (generic_format_FLT radix2 (-1074) 53); exists (Float radix2 m e); [reflexivity|exact Hm|exact He].
Qed.

(** the double [c] is one nearest to the real [r]: no double is closer *)
Definition nearest (r : R) (c : F64) : Prop :=
  is_finite c = true /\ forall x : F64, is_finite x = true -> (Rabs (B2R c - r) <= Rabs (B2R x - r))%R.
Lemma nearest_rnd r c : is_finite c = true -> B2R c = rnd r -> nearest r c.
Proof.
  intros F E; split; [exact F|]; intros x Fx; rewrite E.
  destruct (round_N_pt radix2 (SpecFloat.fexp 53 1024) (fun z => negb (Z.even z)) r) as [_ N]; apply N, fmt_B2R.
Qed.

(** M_PI / 2^k: the numerator and an upper bound of pi *)
Definition pi_num : Z := 884279719003555.
Lemma pi_bounds : (IZR pi_num * bpow radix2 (-48) <= PI <= IZR pi_num * bpow radix2 (-48) + 5 * bpow radix2 (-55))%R.
Proof.
  assert (H : (Q2R (Qmake pi_num (2 ^ 48)) <= PI <= Q2R (Qmake (pi_num * 2 ^ 7 + 5) (2 ^ 55)))%R) by (apply pi_between; vm_compute; reflexivity).
  unfold Q2R in H; cbn [Qnum Qden] in H; rewrite plus_IZR, mult_IZR in H.
  change (bpow radix2 (-48)) with (/ IZR (Z.pos (2 ^ 48)))%R; change (bpow radix2 (-55)) with (/ IZR (Z.pos (2 ^ 55)))%R.
  replace (IZR (Z.pos (2 ^ 55))) with (IZR (Z.pos (2 ^ 48)) * IZR (2 ^ 7))%R in * by (rewrite <- mult_IZR; reflexivity).
  assert (0 < IZR (Z.pos (2 ^ 48)))%R by (apply IZR_lt; reflexivity); assert (0 < IZR (2 ^ 7))%R by (apply IZR_lt; reflexivity).
  assert (E : (/ (IZR (Z.pos (2 ^ 48)) * IZR (2 ^ 7)) * IZR (2 ^ 7) = / IZR (Z.pos (2 ^ 48)))%R) by (field; lra); nra.
Qed.
Lemma rnd_pi k : -1000 <= k <= 900 -> rnd (PI * bpow radix2 (k + 48)) = (IZR pi_num * bpow radix2 k)%R.
Proof.
  intros Hk; pose proof (bpow_gt_0 radix2 (k + 48)) as P; pose proof pi_bounds as [B1 B2].
  assert (P48 : (bpow radix2 (-48) = 8 * bpow radix2 (-51))%R) by (change 8%R with (bpow radix2 3); rewrite <- bpow_plus; reflexivity).
  assert (P51 : (bpow radix2 (-51) = 16 * bpow radix2 (-55))%R) by (change 16%R with (bpow radix2 4); rewrite <- bpow_plus; reflexivity).
  assert (I51 : (bpow radix2 (-51) * bpow radix2 51 = 1)%R) by (rewrite <- bpow_plus; reflexivity).
  pose proof (bpow_gt_0 radix2 51) as Q51; pose proof (bpow_gt_0 radix2 (-55)) as Q55.
  assert (M : mag radix2 (PI * bpow radix2 (k + 48)) = k + 50 :> Z).
  { apply mag_unique; rewrite Rabs_pos_eq by (apply Rmult_le_pos; [pose proof PI_RGT_0; lra|lra]).
    replace (k + 50 - 1) with (1 + (k + 48)) by lia; replace (k + 50) with (2 + (k + 48)) by lia; rewrite (bpow_plus radix2 1), (bpow_plus radix2 2).
    change (bpow radix2 1) with 2%R; change (bpow radix2 2) with 4%R; pose proof PI2_1; pose proof PI_4.
    assert (PI < 4)%R.
    { apply Rle_lt_trans with (1 := B2); change (bpow radix2 (-48)) with (/ 281474976710656)%R; change (bpow radix2 (-55)) with (/ 36028797018963968)%R; unfold pi_num; lra. }
    split; [apply Rmult_le_compat_r; [lra|unfold Rdiv in *; lra]|apply Rmult_lt_compat_r; [lra|assumption]]. }
  unfold round, F2R, scaled_mantissa, cexp; cbn [Fnum Fexp]; rewrite M.
  assert (Ec : SpecFloat.fexp 53 1024 (k + 50) = k - 3) by (unfold SpecFloat.fexp, SpecFloat.emin; lia); rewrite Ec.
  assert (S : (PI * bpow radix2 (k + 48) * bpow radix2 (- (k - 3)) = PI * bpow radix2 51)%R) by (rewrite Rmult_assoc, <- bpow_plus; do 2 f_equal; lia).
  rewrite S, (Znearest_imp _ _ (8 * pi_num)).
  - rewrite mult_IZR; replace (bpow radix2 k) with (8 * bpow radix2 (k - 3))%R; [ring|]; change 8%R with (bpow radix2 3); rewrite <- bpow_plus; f_equal; lia.
  - rewrite mult_IZR; set (n := IZR pi_num) in *; rewrite P48, P51 in B1, B2; rewrite P51 in I51.
    apply (Rmult_le_compat_r (bpow radix2 51)) in B1; [|lra]; apply (Rmult_le_compat_r (bpow radix2 51)) in B2; [|lra].
    set (u := bpow radix2 (-55)) in *; set (q := bpow radix2 51) in *.
    replace (n * (8 * (16 * u)) * q)%R with (8 * n * (16 * u * q))%R in B1 by ring.
    replace ((n * (8 * (16 * u)) + 5 * u) * q)%R with ((8 * n + 5 / 16) * (16 * u * q))%R in B2 by field.
    rewrite I51 in B1, B2; apply Rabs_def1; lra.
Qed.

(** M_PI is the double nearest to pi, and -M_PI / 4, the angle of a rotation between equal diagonal entries, is the one nearest to
    -pi / 4 *)
Theorem C132_pi :
  forall (L : Libm), nearest PI (@n_pi F64 (f64_num L)) /\
  forall a_lm a_ll a_mm : F64, Beqb (f64_sub a_ll a_mm) #0 = true -> nearest (- PI / 4) (@angle F64 (f64_num L) a_lm a_ll a_mm).
Proof.
  intros L; change (@n_pi F64 (f64_num L)) with (f64_div (f64_of_Z pi_num) (f64_of_Z (2 ^ 48))).
  destruct (f64_of_Z_correct pi_num ltac:(unfold pi_num; lia)) as (A & FA & _); destruct (pi_pow 48 ltac:(lia)) as [B FB].
  assert (E : (IZR pi_num / bpow radix2 48 = IZR pi_num * bpow radix2 (-48))%R) by (unfold Rdiv; rewrite <- bpow_opp; reflexivity).
  assert (F : fmt (IZR pi_num * bpow radix2 (-48))) by (apply fmt_dyadic; unfold pi_num; lia).
  assert (V : (0 < IZR pi_num * bpow radix2 (-48) < 4)%R).
  { change (bpow radix2 (-48)) with (/ 281474976710656)%R; unfold pi_num; lra. }
  assert (Rg : forall x, fmt x -> (Rabs x < 4)%R -> in_range x).
  { intros x Fx Hx; unfold in_range; rewrite (rnd_fmt _ Fx); apply Rlt_trans with (1 := Hx); change 4%R with (bpow radix2 2); apply bpow_lt; lia. }
  destruct (div_ok (f64_of_Z pi_num) (f64_of_Z (2 ^ 48)) FA) as [D FD].
  { rewrite B; apply Rgt_not_eq, bpow_gt_0. }
  { rewrite A, B, E; apply (Rg _ F); rewrite Rabs_pos_eq by lra; lra. }
  rewrite A, B, E, (rnd_fmt _ F) in D; set (p := f64_div (f64_of_Z pi_num) (f64_of_Z (2 ^ 48))) in *.
  split.
  - apply nearest_rnd; [exact FD|]; rewrite D, <- (rnd_pi (-48)) by lia; change (bpow radix2 (-48 + 48)) with 1%R; rewrite Rmult_1_r; reflexivity.
  - intros a_lm a_ll a_mm H; unfold angle; change (@n_eqb F64 (f64_num L) (@n_sub F64 (f64_num L) a_ll a_mm) (@n_of_Z F64 (f64_num L) 0)) with (Beqb (f64_sub a_ll a_mm) #0).
    rewrite H; change (@n_div F64 (f64_num L) (@n_opp F64 (f64_num L) (@n_pi F64 (f64_num L))) (@n_of_Z F64 (f64_num L) 4)) with (f64_div (Bopp p) #4).
    destruct (f64_of_Z_correct 4 ltac:(lia)) as (A4 & F4 & _).
    assert (E4 : (- (IZR pi_num * bpow radix2 (-48)) / 4 = - (IZR pi_num * bpow radix2 (-50)))%R).
    { replace (bpow radix2 (-48)) with (4 * bpow radix2 (-50))%R; [field|change 4%R with (bpow radix2 2); rewrite <- bpow_plus; reflexivity]. }
    assert (G : fmt (- (IZR pi_num * bpow radix2 (-50)))) by (apply generic_format_opp, fmt_dyadic; unfold pi_num; lia).
    assert (FO : is_finite (Bopp p) = true) by (rewrite is_finite_Bopp; exact FD).
    destruct (div_ok (Bopp p) #4 FO) as [D4 FD4].
    { rewrite A4; lra. }
    { rewrite B2R_Bopp, D, A4, E4; apply (Rg _ G); rewrite <- E4; unfold Rdiv; rewrite Rabs_mult, Rabs_Ropp, !Rabs_pos_eq by lra; lra. }
    rewrite B2R_Bopp, D, A4, E4, (rnd_fmt _ G) in D4.
    apply nearest_rnd; [exact FD4|]; rewrite D4, <- (rnd_pi (-50)) by lia.
    replace (- PI / 4)%R with (- (PI * bpow radix2 (-50 + 48)))%R by (change (bpow radix2 (-50 + 48)) with (/ 4)%R; field).
    symmetry; apply round_NE_opp.
Qed.
Print Assumptions C132_pi.

(** ** Decimal literals *)
Lemma ratio_rnd L p q : Z.abs p <= 2 ^ 53 -> 0 < q <= 2 ^ 53 -> Z.abs p <= q ->
  B2R (@n_ratio F64 (f64_num L) p q) = rnd (IZR p / IZR q) /\ is_finite (@n_ratio F64 (f64_num L) p q) = true.
Proof.
  intros Hp Hq Hpq; unfold n_ratio; change (@n_div F64 (f64_num L)) with f64_div; change (@n_of_Z F64 (f64_num L)) with f64_of_Z.
  destruct (f64_of_Z_correct p ltac:(lia)) as (A & FA & _); destruct (f64_of_Z_correct q ltac:(lia)) as (B & FB & _).
  assert (Q : (0 < IZR q)%R) by (apply IZR_lt; lia).
  destruct (div_ok (f64_of_Z p) (f64_of_Z q) FA) as [D FD].
  - rewrite B; lra.
  - rewrite A, B; apply (range_between #(-1) #1).
    destruct (f64_of_Z_correct 1 ltac:(lia)) as (A1 & _ & _); destruct (f64_of_Z_correct (-1) ltac:(lia)) as (A2 & _ & _); rewrite A1, A2.
    assert (- IZR q <= IZR p <= IZR q)%R by (rewrite <- opp_IZR; split; apply IZR_le; lia).
    split; apply (Rmult_le_reg_r (IZR q)); try assumption; unfold Rdiv; rewrite Rmult_assoc, Rinv_l by lra; lra.
  - rewrite A, B in D; split; assumption.
Qed.

(** the value of a quotient of two whole numbers that is a double *)
Lemma ratio_exact L p q e : Z.abs p < 2 ^ 53 -> 0 <= e <= 53 -> q = 2 ^ e -> Z.abs p <= q ->
  B2R (@n_ratio F64 (f64_num L) p q) = (IZR p / IZR q)%R.
Proof.
  intros Hp He -> Hpq; destruct (ratio_rnd L p (2 ^ e) ltac:(lia)) as [E _]; [|exact Hpq|].
  - split; [apply Z.pow_pos_nonneg; lia|apply Z.pow_le_mono_r; lia].
  - rewrite E; apply rnd_fmt.
    replace (IZR p / IZR (2 ^ e))%R with (IZR p * bpow radix2 (- e))%R.
    + apply fmt_dyadic; lia.
    + rewrite bpow_opp; unfold Rdiv; do 2 f_equal; rewrite <- IZR_Zpower by lia; reflexivity.
Qed.

(** 1e-10 (inv, div) and 0.00001 (eigen) are the doubles nearest to the decimals; the levels 0.25, 0.5, 0.75 are exact *)
Theorem C132_literals :
  forall (L : Libm),
  nearest (/ 10 ^ 10) (@tiny F64 (f64_num L)) /\ nearest (/ 10 ^ 10) (@n_tiny F64 (f64_num L)) /\ nearest (/ 10 ^ 5) (@eps F64 (f64_num L)) /\
  B2R (@n_ratio F64 (f64_num L) 1 4) = (1 / 4)%R /\ B2R (@n_ratio F64 (f64_num L) 1 2) = (1 / 2)%R /\ B2R (@n_ratio F64 (f64_num L) 3 4) = (3 / 4)%R.
Proof.
  intros L.
  assert (T : nearest (/ 10 ^ 10) (@n_ratio F64 (f64_num L) 1 10000000000)).
  { destruct (ratio_rnd L 1 10000000000) as [E F]; try lia; apply nearest_rnd; [exact F|]; rewrite E; f_equal; lra. }
  split; [exact T|]; split; [exact T|]; split.
  { destruct (ratio_rnd L 1 100000) as [E F]; try lia; apply nearest_rnd; [exact F|]; refine (eq_trans E _); f_equal; lra. }
  split; [apply (ratio_exact L 1 4 2); try reflexivity; lia|]; split; [apply (ratio_exact L 1 2 1); try reflexivity; lia|].
  apply (ratio_exact L 3 4 2); try reflexivity; lia.
Qed.
Print Assumptions C132_literals.

(** the double 1e-10 is not below the decimal, and every double below it is below the decimal *)
Lemma tiny_above L : (/ 10 ^ 10 <= B2R (@n_ratio F64 (f64_num L) 1 10000000000))%R.
Proof.
  change (@n_ratio F64 (f64_num L) 1 10000000000) with (f64_div (f64_of_Z 1) (f64_of_Z 10000000000)).
  rewrite <- SF2R_B2SF.
  assert (E : B2SF (f64_div (f64_of_Z 1) (f64_of_Z 10000000000)) = SpecFloat.S754_finite false 7737125245533627 (-86)) by (vm_compute; reflexivity).
  rewrite E; unfold SF2R, F2R; cbn [Defs.Fnum Defs.Fexp cond_Zopp].
  replace (bpow radix2 (-86)) with (/ IZR (2 ^ 86))%R by reflexivity.
  assert (P : (0 < IZR (2 ^ 86))%R) by (apply IZR_lt; reflexivity).
  replace (10 ^ 10)%R with (IZR 10000000000) by lra.
  apply (Rmult_le_reg_r (IZR (2 ^ 86) * IZR 10000000000)); [apply Rmult_lt_0_compat; [exact P|lra]|].
  replace (/ IZR 10000000000 * (IZR (2 ^ 86) * IZR 10000000000))%R with (IZR (2 ^ 86)) by (field; lra).
  replace (IZR (Z.pos 7737125245533627) * / IZR (2 ^ 86) * (IZR (2 ^ 86) * IZR 10000000000))%R with (IZR (7737125245533627 * 10000000000))
    by (rewrite mult_IZR; field; lra).
  apply IZR_le; vm_compute; discriminate.
Qed.
Lemma below_tiny L (w : F64) : is_finite w = true ->
  Bltb (Babs w) (@n_ratio F64 (f64_num L) 1 10000000000) = true <-> (Rabs (B2R w) < / 10 ^ 10)%R.
Proof.
  intros Fw; destruct (ratio_rnd L 1 10000000000) as [E F]; try lia; pose proof (tiny_above L) as A.
  assert (Fa : is_finite (Babs w) = true) by (rewrite is_finite_Babs; exact Fw).
  rewrite (lt_ok (Babs w) _ Fa F), B2R_Babs; split; intros H; [|lra].
  destruct (Rlt_dec (Rabs (B2R w)) (/ 10 ^ 10)) as [|N]; [assumption|exfalso; apply Rnot_lt_le in N].
  apply rnd_le in N; rewrite (rnd_fmt (Rabs (B2R w))) in N by (rewrite <- B2R_Babs; apply fmt_B2R).
  rewrite E in H; replace (1 / 10000000000)%R with (/ 10 ^ 10)%R in H by lra; lra.
Qed.

(** the guard of [div] decides |w| < 10^-10 exactly, and so does the one of [inv] for the determinant it computes *)
Definition below (x : F64) : bool := if Rlt_dec (Rabs (B2R x)) (/ 10 ^ 10) then true else false.
Theorem C132_guards :
  forall (L : Libm),
  (forall (s divider : Serie F64) k rows ws, repr s k rows -> repr divider 1 (col ws) -> len ws = len rows -> rows <> [] -> 1 <= k ->
     Forall (fun w => is_finite w = true) ws ->
     @div_serie F64 (f64_num L) divider s = Ok (mk k (map2 (fun r w => map (fun x => if below w then #0 else f64_div x w) r) rows ws) 3)) /\
  (forall xx xy xz yy yz zz, let d := det9 xx xy xz xy yy yz xz yz zz in is_finite d = true ->
     (@inv6_item F64 (f64_num L) [xx; xy; xz; yy; yz; zz] = Throw RuntimeError <-> (Rabs (B2R d) < / 10 ^ 10)%R)) /\
  (forall xx xy xz yx yy yz zx zy zz, let d := det9 xx xy xz yx yy yz zx zy zz in is_finite d = true ->
     (@inv9_item F64 (f64_num L) [xx; xy; xz; yx; yy; yz; zx; zy; zz] = Throw RuntimeError <-> (Rabs (B2R d) < / 10 ^ 10)%R)).
Proof.
  intros L; split; [|split].
  - intros s divider k rows ws Hs Hd Hl Hne Hk Hf.
    rewrite (proj2 (C60_div F64 (f64_num L) s k rows Hs) divider ws Hd Hl Hne Hk); do 2 f_equal.
    clear -Hf; revert rows; induction Hf as [|w ws Fw Hf IH]; intros [|r rows]; cbn [map2]; try reflexivity; f_equal; [|apply IH].
    apply map_ext; intros x; unfold guarded, below; cbn [n_ltb n_abs f64_num].
    pose proof (below_tiny L w Fw) as B; destruct (Rlt_dec _ _) as [l|n].
    + apply B in l; rewrite l; reflexivity.
    + destruct (Bltb (Babs w) (@n_ratio F64 (f64_num L) 1 10000000000)); [exfalso; apply n, B; reflexivity|reflexivity].
  - intros xx xy xz yy yz zz d Fd; rewrite <- (below_tiny L d Fd).
    change (@inv6_item F64 (f64_num L) [xx; xy; xz; yy; yz; zz] = Throw RuntimeError) with
      ((if Bltb (Babs d) (@n_ratio F64 (f64_num L) 1 10000000000) then Throw RuntimeError
        else let i := f64_div #1 d in
      Ok [f64_mul (f64_sub (f64_mul yy zz) (f64_mul yz yz)) i; f64_mul (f64_sub (f64_mul xz yz) (f64_mul xy zz)) i;
          f64_mul (f64_sub (f64_mul xy yz) (f64_mul xz yy)) i; f64_mul (f64_sub (f64_mul xx zz) (f64_mul xz xz)) i;
          f64_mul (f64_sub (f64_mul xy xz) (f64_mul xx yz)) i; f64_mul (f64_sub (f64_mul xx yy) (f64_mul xy xy)) i]) = Throw RuntimeError).
    destruct (Bltb _ _); split; intros H; try reflexivity; discriminate H.
  - intros xx xy xz yx yy yz zx zy zz d Fd; rewrite <- (below_tiny L d Fd).
    change (@inv9_item F64 (f64_num L) [xx; xy; xz; yx; yy; yz; zx; zy; zz] = Throw RuntimeError) with
      ((if Bltb (Babs d) (@n_ratio F64 (f64_num L) 1 10000000000) then Throw RuntimeError
    else let i := f64_div #1 d in
      Ok [f64_mul (f64_sub (f64_mul yy zz) (f64_mul yz zy)) i; f64_mul (f64_sub (f64_mul xz zy) (f64_mul xy zz)) i;
          f64_mul (f64_sub (f64_mul xy yz) (f64_mul xz yy)) i; f64_mul (f64_sub (f64_mul yz zx) (f64_mul yx zz)) i;
          f64_mul (f64_sub (f64_mul xx zz) (f64_mul xz zx)) i; f64_mul (f64_sub (f64_mul zx xy) (f64_mul xx zy)) i;
          f64_mul (f64_sub (f64_mul yx zy) (f64_mul yy zx)) i; f64_mul (f64_sub (f64_mul xy zx) (f64_mul xx zy)) i;
          f64_mul (f64_sub (f64_mul xx yy) (f64_mul xy yx)) i]) = Throw RuntimeError).
    destruct (Bltb _ _); split; intros H; try reflexivity; discriminate H.
Qed.
Print Assumptions C132_guards.

Example C132_ex :
  Beqb (f64_sub #3 #3) #0 = true /\ below #0 = true /\ below #1 = false /\
  is_finite (det9 #2 #0 #0 #0 #3 #0 #0 #0 #4) = true /\ Forall (fun w => is_finite w = true) [#0; #1] /\
  (exists w, @div_serie F64 F64N (mk 1 (col [#0; #1]) 3) (mk 1 (col [#5; #7]) 3) = Ok w /\ map B2SF (s_ w) = [B2SF #0; B2SF #7]).
Proof.
  split; [vm_compute; reflexivity|].
  assert (B0 : below #0 = true).
  { unfold below; destruct (Rlt_dec _ _) as [|n]; [reflexivity|exfalso; apply n].
    destruct (f64_of_Z_correct 0 ltac:(lia)) as (E & _ & _); rewrite E, Rabs_R0; lra. }
  assert (B1 : below #1 = false).
  { unfold below; destruct (Rlt_dec _ _) as [n|]; [exfalso|reflexivity].
    destruct (f64_of_Z_correct 1 ltac:(lia)) as (E & _ & _); rewrite E, Rabs_pos_eq in n by lra; lra. }
  assert (F : Forall (fun w => is_finite w = true) [#0; #1]) by (repeat constructor; vm_compute; reflexivity).
  split; [exact B0|]; split; [exact B1|]; split; [vm_compute; reflexivity|]; split; [exact F|].
  eexists; split.
  - apply (proj1 (C132_guards libm0) (mk 1 (col [#5; #7]) 3) (mk 1 (col [#0; #1]) 3) 1 (col [#5; #7]) [#0; #1]);
      [repr_ex|repr_ex|reflexivity|discriminate|lia|exact F].
  - cbn [map2 col map]; rewrite B0, B1; vm_compute; reflexivity.
Qed.
