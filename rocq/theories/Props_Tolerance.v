(** * C128: the default tolerance of approximatelyEquals. *)
From Verif Require Import Base Num Serie Spec BaseFacts SerieFacts Functional FunctionalFacts Mathf MathFacts MinMaxFacts Utils.
From Verif Require Import F64 F64Facts F64Arith F64Round OrderFacts Props_Functional Props_Equals.
From Flocq Require Import Core IEEE754.BinarySingleNaN.
From Coq Require Import Reals Lra Psatz.
Open Scope Z_scope.
Opaque f64_of_Z.

Notation eps L := (@default_epsilon F64 (f64_num L)).
(** 100 times 2^-52; the next double is 2^-98 larger *)
Definition hundred : R := (100 * bpow radix2 (-52))%R.

Lemma eps_value (L : Libm) : is_finite (eps L) = true /\ B2R (eps L) = hundred.
Proof.
  assert (S : B2SF (eps L) = SpecFloat.S754_finite false 7036874417766400 (-98)) by (vm_compute; reflexivity).
  split; [rewrite <- is_finite_SF_B2SF, S; reflexivity|].
  rewrite <- (SF2R_B2SF 53 1024), S; unfold SF2R, F2R, hundred; cbn [Fnum Fexp cond_Zopp].
  replace (-52) with (46 + -98) by lia; rewrite bpow_plus, <- Rmult_assoc; f_equal.
  change (bpow radix2 46) with (IZR (2 ^ 46)); rewrite <- mult_IZR; reflexivity.
Qed.
Lemma fmt_next : fmt (hundred + bpow radix2 (-98)).
Proof.
  apply generic_format_FLT; exists (Float radix2 7036874417766401 (-98)); cbn [Fnum Fexp]; [|vm_compute; reflexivity|vm_compute; discriminate].
  unfold hundred, F2R; cbn [Fnum Fexp]; replace (-52) with (46 + -98) by lia; rewrite bpow_plus.
  change (bpow radix2 46) with (IZR (2 ^ 46)); rewrite <- Rmult_assoc, <- mult_IZR.
  replace (IZR 7036874417766401) with (IZR (100 * 2 ^ 46) + 1)%R by (rewrite <- plus_IZR; reflexivity); ring.
Qed.

Lemma rnd_abs r : Rabs (rnd r) = rnd (Rabs r).
Proof. unfold Rabs at 2; destruct (Rcase_abs r) as [H|H].
  - rewrite rnd_opp; apply Rabs_left1; rewrite <- rnd_0; apply rnd_le; lra.
  - apply Rabs_pos_eq; rewrite <- rnd_0; apply rnd_le; lra.
Qed.

(** the comparison of two finite numbers *)
Lemma within_rnd (L : Libm) (x y : F64) : is_finite x = true -> is_finite y = true ->
  (@within F64 (f64_num L) (eps L) x y = true <-> (rnd (Rabs (B2R x - B2R y)) <= hundred)%R).
Proof.
  intros Fx Fy; destruct (eps_value L) as [Fe Ee]; unfold within; cbn [n_leb n_abs n_sub f64_num].
  destruct (Rlt_le_dec (Rabs (rnd (B2R x - B2R y))) (bpow radix2 1024)) as [Hl|Hg].
  - destruct (sub_ok x y Fx Fy Hl) as [E F].
    rewrite (le_ok (Babs (f64_sub x y)) (eps L)); [|rewrite is_finite_Babs; exact F|exact Fe].
    rewrite B2R_Babs, E, Ee, rnd_abs; reflexivity.
  - assert (H100 : (hundred < bpow radix2 1024)%R).
    { unfold hundred; apply Rlt_le_trans with (bpow radix2 7 * bpow radix2 (-52))%R.
      - apply Rmult_lt_compat_r; [apply bpow_gt_0|]; change (bpow radix2 7) with 128%R; lra.
      - rewrite <- bpow_plus; apply bpow_le; lia. }
    split; intros H; [exfalso|exfalso; rewrite <- rnd_abs in H; lra].
    assert (Fy' : is_finite (Bopp y) = true) by (rewrite is_finite_Bopp; exact Fy).
    destruct (f64_add_overflow x (Bopp y) Fx Fy') as [O _]; [rewrite B2R_Bopp; exact Hg|].
    rewrite f64_sub_add, O in H; clear - Fe H; destruct (eps L); try discriminate Fe; vm_compute in H; discriminate H.
Qed.
Lemma within_upto (L : Libm) (x y : F64) : is_finite x = true -> is_finite y = true ->
  ((Rabs (B2R x - B2R y) <= hundred)%R -> @within F64 (f64_num L) (eps L) x y = true) /\
  (@within F64 (f64_num L) (eps L) x y = true -> (Rabs (B2R x - B2R y) < hundred + bpow radix2 (-98))%R).
Proof.
  intros Fx Fy; rewrite (within_rnd L x y Fx Fy); destruct (eps_value L) as [Fe Ee]; split; intros H.
  - rewrite <- Ee, <- (rnd_B2R (eps L)); apply rnd_le; rewrite Ee; exact H.
  - destruct (Rlt_le_dec (Rabs (B2R x - B2R y)) (hundred + bpow radix2 (-98))) as [Hl|Hg]; [exact Hl|exfalso].
    apply rnd_le in Hg; rewrite (rnd_fmt _ fmt_next) in Hg; pose proof (bpow_gt_0 radix2 (-98)); lra.
Qed.

(** doubles of at least 128 are multiples of 2^-45, which is more than the tolerance *)
Lemma multiple (x : F64) : (128 <= Rabs (B2R x))%R -> exists m, B2R x = (IZR m * bpow radix2 (-45))%R.
Proof.
  intros H; pose proof (fmt_B2R x) as G.
  assert (M : 8 <= mag radix2 (B2R x)) by (apply mag_ge_bpow; change (bpow radix2 (8 - 1)) with 128%R; exact H).
  red in G; rewrite G; unfold F2R; cbn [Fnum Fexp].
  set (n := Ztrunc _); set (c := cexp _ _ _).
  assert (C : -45 <= c) by (unfold c, cexp, SpecFloat.fexp, FLT_exp; lia).
  exists (n * 2 ^ (c + 45)); rewrite mult_IZR; replace c with ((c + 45) + -45) at 1 by lia; rewrite bpow_plus.
  change 2 with (radix_val radix2) at 1; rewrite <- IZR_Zpower by lia; ring.
Qed.
Lemma within_large (L : Libm) (x y : F64) : is_finite x = true -> is_finite y = true -> (128 <= Rabs (B2R x))%R -> (128 <= Rabs (B2R y))%R ->
  (@within F64 (f64_num L) (eps L) x y = true <-> B2R x = B2R y).
Proof.
  intros Fx Fy Hx Hy; split; intros H.
  - apply (within_upto L x y Fx Fy) in H; destruct (multiple x Hx) as (a & Ea); destruct (multiple y Hy) as (b & Eb).
    rewrite Ea, Eb in *; destruct (Z.eq_dec a b) as [->|Hne]; [reflexivity|exfalso].
    rewrite <- Rmult_minus_distr_r, Rabs_mult, (Rabs_pos_eq (bpow _ _)) in H by apply bpow_ge_0.
    rewrite <- minus_IZR, <- abs_IZR in H.
    assert (A : (1 <= IZR (Z.abs (a - b)))%R) by (apply IZR_le; lia).
    unfold hundred in H; replace (-45) with (7 + -52) in H by lia; rewrite bpow_plus in H; change (bpow radix2 7) with 128%R in H.
    assert (U : (bpow radix2 (-98) <= bpow radix2 (-52))%R) by (apply bpow_le; lia); pose proof (bpow_gt_0 radix2 (-52)); nra.
  - apply (within_upto L x y Fx Fy); rewrite H, Rminus_eq_0, Rabs_R0; unfold hundred; pose proof (bpow_gt_0 radix2 (-52)); lra.
Qed.

Definition finites (s : Serie F64) : Prop := Forall (fun x => is_finite x = true) (asArray s).
(** same item size, count, dimension and storage size *)
Definition alike (a b : Serie F64) : Prop :=
  isValid a = true /\ isValid b = true /\ itemSize a = itemSize b /\ count a = count b /\ dimension a = dimension b /\ len (asArray a) = len (asArray b).

Lemma approx_alike (L : Libm) e a b : alike a b ->
  @approximatelyEquals F64 (f64_num L) a b e = std_equal (@within F64 (f64_num L) e) (asArray a) (asArray b).
Proof.
  intros (Va & Vb & Ei & Ec & Ed & _); unfold approximatelyEquals, same_shape; rewrite Va, Vb, Ei, Ec, Ed, !Z.eqb_refl; reflexivity.
Qed.

(** ** C128 *)
(** up to the next double, the tolerance is the bound of the exact difference *)
Theorem C128_bound_partial :
  forall (L : Libm) (a b : Serie F64), alike a b -> finites a -> finites b ->
  exists r, @approximatelyEquals F64 (f64_num L) a b (eps L) = Ok r /\
    (Forall2 (fun x y => (Rabs (B2R x - B2R y) <= hundred)%R) (asArray a) (asArray b) -> r = true) /\
    (r = true -> Forall2 (fun x y => (Rabs (B2R x - B2R y) < hundred + bpow radix2 (-98))%R) (asArray a) (asArray b)).
Proof.
  intros L a b Hab Fa Fb; rewrite (approx_alike L _ a b Hab).
  destruct Hab as (_ & _ & _ & _ & _ & El); unfold finites in *; revert El Fa Fb; generalize (asArray a), (asArray b); clear.
  intros u v El Fu Fv; destruct (std_equal_total (@within F64 (f64_num L) (eps L)) u v) as (r & E & Hr); [unfold len in El; lia|].
  exists r; split; [exact E|]; rewrite Hr; clear - Fu Fv; split; intros H.
  - induction H; [constructor|]; inversion Fu; inversion Fv; subst; constructor; [apply within_upto; assumption|auto].
  - induction H; [constructor|]; inversion Fu; inversion Fv; subst; constructor; [apply (within_upto L); assumption|auto].
Qed.
Print Assumptions C128_bound_partial.

(** the tolerance is absolute: among numbers of 128 and more it accepts nothing but equal numbers *)
Theorem C128_large :
  forall (L : Libm) (a b : Serie F64), alike a b -> finites a -> finites b ->
  Forall (fun x => (128 <= Rabs (B2R x))%R) (asArray a) -> Forall (fun x => (128 <= Rabs (B2R x))%R) (asArray b) ->
  @approximatelyEquals F64 (f64_num L) a b (eps L) = Ok (@equals F64 (f64_num L) a b).
Proof.
  intros L a b Hab Fa Fb Ga Gb; rewrite (approx_alike L _ a b Hab).
  destruct Hab as (Va & Vb & Ei & Ec & Ed & El); unfold equals, same_shape; rewrite Va, Vb, Ei, Ec, Ed, !Z.eqb_refl; cbn [andb].
  assert (E : length (asArray a) = length (asArray b)) by (unfold len in El; lia).
  unfold finites in *; revert E Fa Fb Ga Gb; generalize (asArray a) as x, (asArray b) as y; clear.
  induction x as [|u x IH]; intros [|v y] E Fa Fb Ga Gb; try discriminate; [reflexivity|].
  inversion Fa as [|? ? Fu Fa']; inversion Fb as [|? ? Fv Fb']; inversion Ga as [|? ? Gu Ga']; inversion Gb as [|? ? Gv Gb']; subst; cbn [std_equal array_eqb].
  assert (W : @within F64 (f64_num L) (eps L) u v = @n_eqb F64 (f64_num L) u v).
  { apply eq_true_iff_eq; rewrite (within_large L u v) by assumption; cbn [n_eqb f64_num]; rewrite (Beqb_correct 53 1024 u v Fu Fv).
    destruct (Req_bool_spec (B2R u) (B2R v)); split; intros; congruence. }
  rewrite W; destruct (@n_eqb F64 (f64_num L) u v); [|reflexivity]; apply IH; auto.
Qed.
Print Assumptions C128_large.

(** the order of the Series does not matter, whatever the tolerance and the numbers (NaN and infinities included) *)
Lemma within_sym (L : Libm) (e x y : F64) : @within F64 (f64_num L) e x y = @within F64 (f64_num L) e y x.
Proof.
  unfold within; cbn [n_leb n_abs n_sub f64_num]; f_equal.
  destruct (f64_sub_anti x y) as [Hz| ->]; [|destruct (f64_sub y x); reflexivity].
  assert (Hz' : is_zero (f64_sub y x)) by (apply f64_sub_zero in Hz; apply f64_sub_zero; intuition congruence).
  destruct Hz as [s ->]; destruct Hz' as [s' ->]; reflexivity.
Qed.
Theorem C128_symmetric :
  forall (L : Libm) (e : F64) (a b : Serie F64), len (asArray a) = len (asArray b) ->
  @approximatelyEquals F64 (f64_num L) a b e = @approximatelyEquals F64 (f64_num L) b a e.
Proof.
  intros L e a b El; unfold approximatelyEquals, same_shape.
  rewrite (Z.eqb_sym (itemSize b)), (Z.eqb_sym (count b)), (Z.eqb_sym (dimension b)), (andb_comm (isValid b)).
  destruct (_ && _); [|reflexivity].
  assert (E : length (asArray a) = length (asArray b)) by (unfold len in El; lia).
  revert E; generalize (asArray a) as x, (asArray b) as y; clear; induction x as [|u x IH]; intros [|v y] E; try discriminate; [reflexivity|].
  cbn [std_equal]; rewrite (within_sym L e u v); destruct (@within F64 (f64_num L) e v u); [|reflexivity]; apply IH; cbn in E; lia.
Qed.
Print Assumptions C128_symmetric.

(** the bound is not exact: 100 * 2^-52 and -2^-200 differ by more than the tolerance, the rounded difference does not *)
Theorem C128_bound_refuted :
  exists x y : F64, is_finite x = true /\ is_finite y = true /\ (hundred < Rabs (B2R x - B2R y))%R /\
    forall L, @approximatelyEquals F64 (f64_num L) (mk 1 (col [x]) 3) (mk 1 (col [y]) 3) (eps L) = Ok true.
Proof.
  exists (eps libm0), (f64_div #(-1) (f64_of_Z (2 ^ 200))); destruct (eps_value libm0) as [Fe Ee]; split; [exact Fe|]; split; [vm_compute; reflexivity|].
  split.
  - assert (S : B2SF (f64_div #(-1) (f64_of_Z (2 ^ 200))) = SpecFloat.S754_finite true 4503599627370496 (-252)) by (vm_compute; reflexivity).
    rewrite <- (SF2R_B2SF 53 1024 (f64_div _ _)), S, Ee; unfold SF2R, F2R; cbn [Fnum Fexp cond_Zopp].
    assert (P : (0 < hundred)%R) by (unfold hundred; pose proof (bpow_gt_0 radix2 (-52)); lra).
    assert (Q : (IZR (Z.neg 4503599627370496) * bpow radix2 (-252) < 0)%R).
    { apply Ropp_lt_cancel; rewrite Ropp_0, Ropp_mult_distr_l, <- opp_IZR; apply Rmult_lt_0_compat; [apply IZR_lt; reflexivity|apply bpow_gt_0]. }
    set (t := (IZR _ * bpow radix2 (-252))%R) in *; clearbody t; rewrite Rabs_pos_eq; lra.
  - intros L; vm_compute; reflexivity.
Qed.
Print Assumptions C128_bound_refuted.

Example C128_ex :
  let a := mk 1 (col [#128; #1000]) 3 in let b := mk 1 (col [#128; #1001]) 3 in
  alike a b /\ finites a /\ finites b /\ Forall (fun x => (128 <= Rabs (B2R x))%R) (asArray a) /\
  @approximatelyEquals F64 F64N a b (eps libm0) = Ok false /\ @approximatelyEquals F64 F64N a a (eps libm0) = Ok true /\
  @approximatelyEquals F64 F64N (mk 1 (col [#1]) 3) (mk 1 (col [f64_add #1 (f64_div #100 (f64_of_Z (2 ^ 52)))]) 3) (eps libm0) = Ok true /\
  @approximatelyEquals F64 F64N (mk 1 (col [#1]) 3) (mk 1 (col [f64_add #1 (f64_div #101 (f64_of_Z (2 ^ 52)))]) 3) (eps libm0) = Ok false.
Proof.
  cbv zeta; split; [repeat split|].
  assert (Lit : forall z, 128 <= z <= 2000 -> is_finite (f64_of_Z z) = true /\ (128 <= Rabs (B2R (f64_of_Z z)))%R).
  { intros z Hz; destruct (f64_of_Z_correct z ltac:(lia)) as (E & F & _); split; [exact F|]; rewrite E, <- abs_IZR; apply IZR_le; lia. }
  split; [|split; [|split; [|repeat split; vm_compute; reflexivity]]].
  1,2: unfold finites, asArray, mk; cbn [s_ col map concat app]; repeat first [apply Forall_cons | apply Forall_nil]; apply Lit; lia.
  unfold asArray, mk; cbn [s_ col map concat app]; repeat first [apply Forall_cons | apply Forall_nil]; apply Lit; lia.
Qed.
