(** * binary64: one test and one rotation of Jacobi's method, on matrices of size 2 and 3 (src/functional/algebra/eigen.cxx:206-375). *)
From Coq Require Import Reals Lra Psatz.
From Flocq Require Import Core IEEE754.BinarySingleNaN.
From Verif Require Import Base Num Spec F64 F64Facts F64Arith F64Round LinSpec BaseFacts AlgebraFacts Eigen EigenFacts JacobiSpec JacobiFacts.
From Verif Require Import F64Error F64Angle F64Rot F64Jacobi.
Open Scope R_scope.

Lemma finv_S n A M r k st : sizes M r -> (k <= 400)%nat -> finv n A M r k st -> finv n A M r (S k) st.
Proof.
  intros (HM & Hr & Hrr) Hk (Sh & Fa & Fv & Ft & (Q & B & HB & Or & Oc & FB & EV & EA) & Ht & Ho).
  pose proof lo_pos; pose proof (steps_range k Hk); assert (U : 0 < uu) by (unfold uu; lra).
  assert (UR : 0 <= uu * (r * r)) by (apply Rmult_le_pos; lra); assert (UM : 0 <= uu * M) by (apply Rmult_le_pos; lra).
  repeat (split; [assumption|]); split; [|rewrite steps_S; split; lra].
  assert (P : 0 <= steps k * (uu * M)) by (apply Rmult_le_pos; lra); assert (P' : 0 <= steps k * uu) by (apply Rmult_le_pos; lra).
  exists Q, B; repeat (split; [assumption|]); rewrite steps_S; split.
  - apply Rle_trans with (1 := EV); apply Rmult_le_compat; lra.
  - apply Rle_trans with (1 := EA); apply Rmult_le_compat; lra.
Qed.

(** one pair: nothing, or a rotation *)
Definition fstepped (n l m : nat) (A : Mat) (M r : R) (k : nat) (t : F64) (st st' : @jacobi_state F64) : Prop :=
  let b := amat st l m in
  (b * b <= B2R t + uu * (r * r) /\ st' = st) \/
  (B2R t - uu * (r * r) <= b * b /\ finv n A M r (S k) st' /\ off n (amat st') <= off n (amat st) - b * b + 80 * uu * (r * r)).

(** the test *)
Lemma test_near (b t : F64) r : is_finite b = true -> is_finite t = true -> Rabs (B2R b) <= r -> lo <= r * r <= hi / 8 ->
  (Bltb (f64_mul b b) t = true -> B2R b * B2R b <= B2R t + uu * (r * r)) /\ (Bltb (f64_mul b b) t = false -> B2R t - uu * (r * r) <= B2R b * B2R b).
Proof.
  intros Fb Ft Hb Hr; pose proof lo_pos.
  assert (N1 : nearby (f64_mul b b) (B2R b * B2R b) (uu * (r * r)))
    by (apply (mul_near b b _ _ 0 0 r r (r * r) _ (nearby_self b Fb) (nearby_self b Fb) Hb Hb); lra).
  destruct N1 as [F N1]; apply abs_le in N1; pose proof (lt_ok _ _ F Ft) as E; split; intros H0.
  - apply E in H0; lra.
  - assert (~ B2R (f64_mul b b) < B2R t) by (intros G; apply E in G; congruence); lra.
Qed.

(** sine and cosine of the angle *)
Lemma rotation_angle L (b p q : F64) B : accurate L -> is_finite b = true -> is_finite p = true -> is_finite q = true ->
  Rabs (B2R b) <= B -> Rabs (B2R p) <= B -> Rabs (B2R q) <= B -> B <= hi / 4 ->
  exists C S, nearby (m_cos L (@angle F64 (f64_num L) b p q)) C (2 * uu) /\ nearby (m_sin L (@angle F64 (f64_num L) b p q)) S (2 * uu) /\
    C * C + S * S = 1 /\ Rabs C <= 1 /\ Rabs S <= 1 /\ Rabs (S * C * (B2R p - B2R q) + (C * C - S * S) * B2R b) <= 16 * uu * B.
Proof.
  intros Acc Fb Fp Fq Hb Hp Hq HB; destruct (angle_near L b p q B Acc Fb Fp Fq Hb Hp Hq HB) as (F & H1 & H2).
  set (x := @angle F64 (f64_num L) b p q) in *; exists (cos (B2R x)), (sin (B2R x)).
  destruct Acc as (As & Ac & _); split; [apply Ac; assumption|]; split; [apply As; assumption|]; split; [apply angle_pythagoras|].
  split; [apply cos_abs|]; split; [apply sin_abs|]; exact H2.
Qed.

Ltac fops := cbn [n_add n_sub n_mul n_div n_opp n_abs n_sin n_cos n_of_Z n_ltb f64_num].
Ltac all_finite := unfold finites; repeat (apply Forall_cons; [assumption|]); apply Forall_nil.
Ltac abs_hyps := repeat match goal with H : Rabs _ <= _ |- _ => apply abs_le in H end.
Ltac rred := cbv -[Rplus Rmult Rminus Ropp IZR Rabs Rle B2R uu].

Section Steps.
  Variable L : Libm.
  Hypothesis Acc : accurate L.
  Variables (A : Mat) (M r : R).
  Hypothesis Hsz : sizes M r.

  Lemma pair_F2 k (t : F64) st : (k <= 400)%nat -> is_finite t = true -> finv 2 A M r k st ->
    exists st', @pair_step F64 (f64_num L) 2 t st 1 2 = Ok st' /\ fstepped 2 0 1 A M r k t st st'.
  Proof.
    intros Hk Ftt H; pose proof Hsz as (HM & Hr & Hrr); pose proof lo_pos as LP.
    destruct (shaped2 st (proj1 H)) as (a0 & a1 & a2 & v0 & v1 & v2 & v3 & thr & ->).
    pose proof H as (_ & Fa & Fv & Ft & _); cbn [fst snd] in Fa, Fv, Ft.
    unfold finites in Fa, Fv; rewrite !Forall_cons_iff in Fa; rewrite !Forall_cons_iff in Fv; destruct Fa as (Fa0 & Fa1 & Fa2 & _); destruct Fv as (Fv0 & Fv1 & Fv2 & Fv3 & _).
    pose proof (fun i j => finv_a 2 A M r k _ i j H ltac:(lra) Hk) as Ba; pose proof (fun i j => finv_v 2 A M r k _ i j H Hk) as Bv.
    pose proof (finv_off _ _ _ _ _ _ H Hsz Hk) as [Bo Bt].
    pose proof (Ba 0%nat 0%nat ltac:(lia) ltac:(lia) : Rabs (B2R a0) <= 4 * M) as Ba0.
    pose proof (Ba 0%nat 1%nat ltac:(lia) ltac:(lia) : Rabs (B2R a1) <= 4 * M) as Ba1.
    pose proof (Ba 1%nat 1%nat ltac:(lia) ltac:(lia) : Rabs (B2R a2) <= 4 * M) as Ba2.
    pose proof (Bv 0%nat 0%nat ltac:(lia) ltac:(lia) : Rabs (B2R v0) <= 2) as Bv0.
    pose proof (Bv 0%nat 1%nat ltac:(lia) ltac:(lia) : Rabs (B2R v1) <= 2) as Bv1.
    pose proof (Bv 1%nat 0%nat ltac:(lia) ltac:(lia) : Rabs (B2R v2) <= 2) as Bv2.
    pose proof (Bv 1%nat 1%nat ltac:(lia) ltac:(lia) : Rabs (B2R v3) <= 2) as Bv3.
    clear Ba Bv; rewrite off2 in Bo; change (B2R a1 * B2R a1 <= 51 / 100 * (r * r)) in Bo; change (Rabs (B2R thr) <= 52 / 100 * (r * r)) in Bt.
    assert (R1 : Rabs (B2R a1) <= r) by (apply sq_le; lra).
    rewrite pair2; fops; destruct (test_near a1 t r Fa1 Ftt R1 Hrr) as [T1 T2].
    destruct (Bltb (f64_mul a1 a1) t); [eexists; split; [reflexivity|left; split; [apply T1; reflexivity|reflexivity]]|].
    cbv zeta; destruct (rotation_angle L a1 a0 a2 (4 * M) Acc Fa1 Fa0 Fa2 Ba1 Ba0 Ba2 ltac:(lra)) as (C & S & Nc & Ns & P & AC & AS & Z0).
    set (x := angle a1 a0 a2) in *; set (c := m_cos L x) in *; set (s := m_sin L x) in *; clearbody c s; clear x.
    destruct (thr_near thr a1 r Ft Fa1 Bt R1 Hrr) as [Ft' Nt]; set (thr' := Babs _) in *; clearbody thr'.
    assert (K2 : 2 * lo <= 2 <= hi / 8) by (pose proof lo_hi as (_ & ? & _); assert (16 <= hi) by (change 16 with (bpow radix2 4); apply bpow_le; lia); lra).
    assert (K4 : 2 * lo <= 4 * M <= hi / 8) by lra.
    destruct (diag_minus c s C S Nc Ns AC AS _ K4 a0 a2 Fa0 Fa2 Ba0 Ba2 a1 Fa1 Ba1) as [Fx0 Nx0].
    destruct (diag_plus c s C S Nc Ns AC AS _ K4 a0 a2 Fa0 Fa2 Ba0 Ba2 a1 Fa1 Ba1) as [Fx2 Nx2].
    destruct (row_minus c s C S Nc Ns AC AS _ K2 v0 v2 Fv0 Fv2 Bv0 Bv2) as [Fw0 Nw0].
    destruct (row_minus c s C S Nc Ns AC AS _ K2 v1 v3 Fv1 Fv3 Bv1 Bv3) as [Fw1 Nw1].
    destruct (row_plus c s C S Nc Ns AC AS _ K2 v0 v2 Fv0 Fv2 Bv0 Bv2) as [Fw2 Nw2].
    destruct (row_plus c s C S Nc Ns AC AS _ K2 v1 v3 Fv1 Fv3 Bv1 Bv3) as [Fw3 Nw3].
    destruct zero_B2R as [Z1 Fz].
    set (x0 := f64_sub (f64_add _ _) _) in *; set (x2 := f64_add (f64_add _ _) _) in *.
    set (w0 := f64_sub (f64_mul c v0) _) in *; set (w1 := f64_sub (f64_mul c v1) _) in *.
    set (w2 := f64_add (f64_mul s v0) _) in *; set (w3 := f64_add (f64_mul s v1) _) in *; set (z := f64_of_Z 0) in *.
    clearbody x0 x2 w0 w1 w2 w3 z.
    eexists; split; [reflexivity|right]; split; [apply T2; reflexivity|].
    assert (U : 0 < uu) by (unfold uu; lra); assert (UM : 0 <= uu * M) by (apply Rmult_le_pos; lra); assert (UR : 0 <= uu * (r * r)) by (apply Rmult_le_pos; lra).
    split.
    - apply (frotated 2 0 1 A M r k [a0; a1; a2] [v0; v1; v2; v3] thr _ _ _ C S (B2R a1)); try lia; try assumption; try all_finite; try (split; reflexivity).
      + clear - U Nw0 Nw1 Nw2 Nw3; abs_hyps; mat_cases2; apply abs_le; rred; lra.
      + clear - UM Nx0 Nx2 Z0 Z1; abs_hyps; mat_cases2; apply abs_le; rred; try lra.
      + rewrite !off2; clear - UR Z1; apply abs_le; rred; rewrite Z1; lra.
    - rewrite !off2; clear - UR Z1; rred; rewrite Z1; lra.
  Qed.

  (** three by three *)
  Lemma pair_F3_12 k (t : F64) st : (k <= 400)%nat -> is_finite t = true -> finv 3 A M r k st ->
    exists st', @pair_step F64 (f64_num L) 3 t st 1 2 = Ok st' /\ fstepped 3 0 1 A M r k t st st'.
  Proof.
    intros Hk Ftt H; pose proof Hsz as (HM & Hr & Hrr); pose proof lo_pos as LP.
    destruct (shaped3 st (proj1 H)) as (a0 & a1 & a2 & a3 & a4 & a5 & v0 & v1 & v2 & v3 & v4 & v5 & v6 & v7 & v8 & thr & ->).
    pose proof H as (_ & Fa & Fv & Ft & _); cbn [fst snd] in Fa, Fv, Ft.
    unfold finites in Fa, Fv; rewrite !Forall_cons_iff in Fa; rewrite !Forall_cons_iff in Fv.
    destruct Fa as (Fa0 & Fa1 & Fa2 & Fa3 & Fa4 & Fa5 & _); destruct Fv as (Fv0 & Fv1 & Fv2 & Fv3 & Fv4 & Fv5 & Fv6 & Fv7 & Fv8 & _).
    pose proof (fun i j => finv_a 3 A M r k _ i j H ltac:(lra) Hk) as Ba; pose proof (fun i j => finv_v 3 A M r k _ i j H Hk) as Bv.
    pose proof (finv_off _ _ _ _ _ _ H Hsz Hk) as [Bo Bt].
    pose proof (Ba 0%nat 0%nat ltac:(lia) ltac:(lia) : Rabs (B2R a0) <= 4 * M) as Ba0.
    pose proof (Ba 0%nat 1%nat ltac:(lia) ltac:(lia) : Rabs (B2R a1) <= 4 * M) as Ba1.
    pose proof (Ba 1%nat 1%nat ltac:(lia) ltac:(lia) : Rabs (B2R a2) <= 4 * M) as Ba2.
    pose proof (Ba 0%nat 2%nat ltac:(lia) ltac:(lia) : Rabs (B2R a3) <= 4 * M) as Ba3.
    pose proof (Ba 1%nat 2%nat ltac:(lia) ltac:(lia) : Rabs (B2R a4) <= 4 * M) as Ba4.
    pose proof (Ba 2%nat 2%nat ltac:(lia) ltac:(lia) : Rabs (B2R a5) <= 4 * M) as Ba5.
    pose proof (Bv 0%nat 0%nat ltac:(lia) ltac:(lia) : Rabs (B2R v0) <= 2) as Bv0.
    pose proof (Bv 0%nat 1%nat ltac:(lia) ltac:(lia) : Rabs (B2R v1) <= 2) as Bv1.
    pose proof (Bv 0%nat 2%nat ltac:(lia) ltac:(lia) : Rabs (B2R v2) <= 2) as Bv2.
    pose proof (Bv 1%nat 0%nat ltac:(lia) ltac:(lia) : Rabs (B2R v3) <= 2) as Bv3.
    pose proof (Bv 1%nat 1%nat ltac:(lia) ltac:(lia) : Rabs (B2R v4) <= 2) as Bv4.
    pose proof (Bv 1%nat 2%nat ltac:(lia) ltac:(lia) : Rabs (B2R v5) <= 2) as Bv5.
    pose proof (Bv 2%nat 0%nat ltac:(lia) ltac:(lia) : Rabs (B2R v6) <= 2) as Bv6.
    pose proof (Bv 2%nat 1%nat ltac:(lia) ltac:(lia) : Rabs (B2R v7) <= 2) as Bv7.
    pose proof (Bv 2%nat 2%nat ltac:(lia) ltac:(lia) : Rabs (B2R v8) <= 2) as Bv8.
    clear Ba Bv; rewrite off3 in Bo; change (B2R a1 * B2R a1 + B2R a3 * B2R a3 + B2R a4 * B2R a4 <= 51 / 100 * (r * r)) in Bo; change (Rabs (B2R thr) <= 52 / 100 * (r * r)) in Bt.
    pose proof (sq_ge0 (B2R a1)); pose proof (sq_ge0 (B2R a3)); pose proof (sq_ge0 (B2R a4)).
    assert (R1 : Rabs (B2R a1) <= r) by (apply sq_le; lra); assert (R3 : Rabs (B2R a3) <= r) by (apply sq_le; lra); assert (R4 : Rabs (B2R a4) <= r) by (apply sq_le; lra).
    rewrite pair3_12; fops; destruct (test_near a1 t r Fa1 Ftt R1 Hrr) as [T1 T2].
    destruct (Bltb (f64_mul a1 a1) t); [eexists; split; [reflexivity|left; split; [apply T1; reflexivity|reflexivity]]|].
    cbv zeta; destruct (rotation_angle L a1 a0 a2 (4 * M) Acc Fa1 Fa0 Fa2 Ba1 Ba0 Ba2 ltac:(lra)) as (C & S & Nc & Ns & P & AC & AS & Z0).
    set (x := angle a1 a0 a2) in *; set (c := m_cos L x) in *; set (s := m_sin L x) in *; clearbody c s; clear x.
    destruct (thr_near thr a1 r Ft Fa1 Bt R1 Hrr) as [Ft' Nt]; set (thr' := Babs _) in *; clearbody thr'.
    assert (K2 : 2 * lo <= 2 <= hi / 8) by (pose proof lo_hi as (_ & ? & _); assert (16 <= hi) by (change 16 with (bpow radix2 4); apply bpow_le; lia); lra).
    assert (K4 : 2 * lo <= 4 * M <= hi / 8) by lra.
    destruct (diag_minus c s C S Nc Ns AC AS _ K4 a0 a2 Fa0 Fa2 Ba0 Ba2 a1 Fa1 Ba1) as [Fxp Nxp].
    destruct (diag_plus c s C S Nc Ns AC AS _ K4 a0 a2 Fa0 Fa2 Ba0 Ba2 a1 Fa1 Ba1) as [Fxq Nxq].
    destruct (off_minus c s C S Nc Ns AC AS _ K4 a3 a4 Fa3 Fa4 Ba3 Ba4) as [Fxl Nxl].
    destruct (off_plus c s C S Nc Ns AC AS _ K4 a3 a4 Fa3 Fa4 Ba3 Ba4) as [Fxm Nxm].
    destruct (off_minus c s C S Nc Ns AC AS r Hr a3 a4 Fa3 Fa4 R3 R4) as [_ Nrl].
    destruct (off_plus c s C S Nc Ns AC AS r Hr a3 a4 Fa3 Fa4 R3 R4) as [_ Nrm].
    destruct (row_minus c s C S Nc Ns AC AS _ K2 v0 v3 Fv0 Fv3 Bv0 Bv3) as [Fw0 Nw0].
    destruct (row_plus c s C S Nc Ns AC AS _ K2 v0 v3 Fv0 Fv3 Bv0 Bv3) as [Fw3 Nw3].
    destruct (row_minus c s C S Nc Ns AC AS _ K2 v1 v4 Fv1 Fv4 Bv1 Bv4) as [Fw1 Nw1].
    destruct (row_plus c s C S Nc Ns AC AS _ K2 v1 v4 Fv1 Fv4 Bv1 Bv4) as [Fw4 Nw4].
    destruct (row_minus c s C S Nc Ns AC AS _ K2 v2 v5 Fv2 Fv5 Bv2 Bv5) as [Fw2 Nw2].
    destruct (row_plus c s C S Nc Ns AC AS _ K2 v2 v5 Fv2 Fv5 Bv2 Bv5) as [Fw5 Nw5].
    destruct zero_B2R as [Z1 Fz].
    set (xp := f64_sub (f64_add _ _) _) in *; set (xq := f64_add (f64_add _ _) _) in *; set (xl := f64_sub (f64_mul a3 c) _) in *; set (xm := f64_add (f64_mul a3 s) _) in *.
    set (w0 := f64_sub (f64_mul c v0) _) in *; set (w3 := f64_add (f64_mul s v0) _) in *.
    set (w1 := f64_sub (f64_mul c v1) _) in *; set (w4 := f64_add (f64_mul s v1) _) in *.
    set (w2 := f64_sub (f64_mul c v2) _) in *; set (w5 := f64_add (f64_mul s v2) _) in *.
    set (z := f64_of_Z 0) in *; clearbody xp xq xl xm w0 w3 w1 w4 w2 w5 z.
    eexists; split; [reflexivity|right]; split; [apply T2; reflexivity|].
    assert (U : 0 < uu) by (unfold uu; lra); assert (UM : 0 <= uu * M) by (apply Rmult_le_pos; lra); assert (UR : 0 <= uu * (r * r)) by (apply Rmult_le_pos; lra).
    pose proof (square_near _ _ C S _ _ r P AC AS R3 R4 Nrl Nrm) as Sq.
    split.
    - apply (frotated 3 0 1 A M r k [a0; a1; a2; a3; a4; a5] [v0; v1; v2; v3; v4; v5; v6; v7; v8] thr _ _ _ C S (B2R a1)); try lia; try assumption; try all_finite; try (split; reflexivity).
      + clear - U Nw0 Nw3 Nw1 Nw4 Nw2 Nw5; abs_hyps; mat_cases3; apply abs_le; rred; lra.
      + clear - UM Nxp Nxq Nxl Nxm Z0 Z1; abs_hyps; mat_cases3; apply abs_le; rred; try lra.
      + rewrite !off3; clear - UR Z1 Sq; abs_hyps; apply abs_le; revert Sq Z1; rred; intros Sq ->; lra.
    - rewrite !off3; clear - UR Z1 Sq; abs_hyps; revert Sq Z1; rred; intros Sq ->; lra.
  Qed.
  Lemma pair_F3_13 k (t : F64) st : (k <= 400)%nat -> is_finite t = true -> finv 3 A M r k st ->
    exists st', @pair_step F64 (f64_num L) 3 t st 1 3 = Ok st' /\ fstepped 3 0 2 A M r k t st st'.
  Proof.
    intros Hk Ftt H; pose proof Hsz as (HM & Hr & Hrr); pose proof lo_pos as LP.
    destruct (shaped3 st (proj1 H)) as (a0 & a1 & a2 & a3 & a4 & a5 & v0 & v1 & v2 & v3 & v4 & v5 & v6 & v7 & v8 & thr & ->).
    pose proof H as (_ & Fa & Fv & Ft & _); cbn [fst snd] in Fa, Fv, Ft.
    unfold finites in Fa, Fv; rewrite !Forall_cons_iff in Fa; rewrite !Forall_cons_iff in Fv.
    destruct Fa as (Fa0 & Fa1 & Fa2 & Fa3 & Fa4 & Fa5 & _); destruct Fv as (Fv0 & Fv1 & Fv2 & Fv3 & Fv4 & Fv5 & Fv6 & Fv7 & Fv8 & _).
    pose proof (fun i j => finv_a 3 A M r k _ i j H ltac:(lra) Hk) as Ba; pose proof (fun i j => finv_v 3 A M r k _ i j H Hk) as Bv.
    pose proof (finv_off _ _ _ _ _ _ H Hsz Hk) as [Bo Bt].
    pose proof (Ba 0%nat 0%nat ltac:(lia) ltac:(lia) : Rabs (B2R a0) <= 4 * M) as Ba0.
    pose proof (Ba 0%nat 1%nat ltac:(lia) ltac:(lia) : Rabs (B2R a1) <= 4 * M) as Ba1.
    pose proof (Ba 1%nat 1%nat ltac:(lia) ltac:(lia) : Rabs (B2R a2) <= 4 * M) as Ba2.
    pose proof (Ba 0%nat 2%nat ltac:(lia) ltac:(lia) : Rabs (B2R a3) <= 4 * M) as Ba3.
    pose proof (Ba 1%nat 2%nat ltac:(lia) ltac:(lia) : Rabs (B2R a4) <= 4 * M) as Ba4.
    pose proof (Ba 2%nat 2%nat ltac:(lia) ltac:(lia) : Rabs (B2R a5) <= 4 * M) as Ba5.
    pose proof (Bv 0%nat 0%nat ltac:(lia) ltac:(lia) : Rabs (B2R v0) <= 2) as Bv0.
    pose proof (Bv 0%nat 1%nat ltac:(lia) ltac:(lia) : Rabs (B2R v1) <= 2) as Bv1.
    pose proof (Bv 0%nat 2%nat ltac:(lia) ltac:(lia) : Rabs (B2R v2) <= 2) as Bv2.
    pose proof (Bv 1%nat 0%nat ltac:(lia) ltac:(lia) : Rabs (B2R v3) <= 2) as Bv3.
    pose proof (Bv 1%nat 1%nat ltac:(lia) ltac:(lia) : Rabs (B2R v4) <= 2) as Bv4.
    pose proof (Bv 1%nat 2%nat ltac:(lia) ltac:(lia) : Rabs (B2R v5) <= 2) as Bv5.
    pose proof (Bv 2%nat 0%nat ltac:(lia) ltac:(lia) : Rabs (B2R v6) <= 2) as Bv6.
    pose proof (Bv 2%nat 1%nat ltac:(lia) ltac:(lia) : Rabs (B2R v7) <= 2) as Bv7.
    pose proof (Bv 2%nat 2%nat ltac:(lia) ltac:(lia) : Rabs (B2R v8) <= 2) as Bv8.
    clear Ba Bv; rewrite off3 in Bo; change (B2R a1 * B2R a1 + B2R a3 * B2R a3 + B2R a4 * B2R a4 <= 51 / 100 * (r * r)) in Bo; change (Rabs (B2R thr) <= 52 / 100 * (r * r)) in Bt.
    pose proof (sq_ge0 (B2R a1)); pose proof (sq_ge0 (B2R a3)); pose proof (sq_ge0 (B2R a4)).
    assert (R1 : Rabs (B2R a1) <= r) by (apply sq_le; lra); assert (R3 : Rabs (B2R a3) <= r) by (apply sq_le; lra); assert (R4 : Rabs (B2R a4) <= r) by (apply sq_le; lra).
    rewrite pair3_13; fops; destruct (test_near a3 t r Fa3 Ftt R3 Hrr) as [T1 T2].
    destruct (Bltb (f64_mul a3 a3) t); [eexists; split; [reflexivity|left; split; [apply T1; reflexivity|reflexivity]]|].
    cbv zeta; destruct (rotation_angle L a3 a0 a5 (4 * M) Acc Fa3 Fa0 Fa5 Ba3 Ba0 Ba5 ltac:(lra)) as (C & S & Nc & Ns & P & AC & AS & Z0).
    set (x := angle a3 a0 a5) in *; set (c := m_cos L x) in *; set (s := m_sin L x) in *; clearbody c s; clear x.
    destruct (thr_near thr a3 r Ft Fa3 Bt R3 Hrr) as [Ft' Nt]; set (thr' := Babs _) in *; clearbody thr'.
    assert (K2 : 2 * lo <= 2 <= hi / 8) by (pose proof lo_hi as (_ & ? & _); assert (16 <= hi) by (change 16 with (bpow radix2 4); apply bpow_le; lia); lra).
    assert (K4 : 2 * lo <= 4 * M <= hi / 8) by lra.
    destruct (diag_minus c s C S Nc Ns AC AS _ K4 a0 a5 Fa0 Fa5 Ba0 Ba5 a3 Fa3 Ba3) as [Fxp Nxp].
    destruct (diag_plus c s C S Nc Ns AC AS _ K4 a0 a5 Fa0 Fa5 Ba0 Ba5 a3 Fa3 Ba3) as [Fxq Nxq].
    destruct (off_minus c s C S Nc Ns AC AS _ K4 a1 a4 Fa1 Fa4 Ba1 Ba4) as [Fxl Nxl].
    destruct (off_plus c s C S Nc Ns AC AS _ K4 a1 a4 Fa1 Fa4 Ba1 Ba4) as [Fxm Nxm].
    destruct (off_minus c s C S Nc Ns AC AS r Hr a1 a4 Fa1 Fa4 R1 R4) as [_ Nrl].
    destruct (off_plus c s C S Nc Ns AC AS r Hr a1 a4 Fa1 Fa4 R1 R4) as [_ Nrm].
    destruct (row_minus c s C S Nc Ns AC AS _ K2 v0 v6 Fv0 Fv6 Bv0 Bv6) as [Fw0 Nw0].
    destruct (row_plus c s C S Nc Ns AC AS _ K2 v0 v6 Fv0 Fv6 Bv0 Bv6) as [Fw6 Nw6].
    destruct (row_minus c s C S Nc Ns AC AS _ K2 v1 v7 Fv1 Fv7 Bv1 Bv7) as [Fw1 Nw1].
    destruct (row_plus c s C S Nc Ns AC AS _ K2 v1 v7 Fv1 Fv7 Bv1 Bv7) as [Fw7 Nw7].
    destruct (row_minus c s C S Nc Ns AC AS _ K2 v2 v8 Fv2 Fv8 Bv2 Bv8) as [Fw2 Nw2].
    destruct (row_plus c s C S Nc Ns AC AS _ K2 v2 v8 Fv2 Fv8 Bv2 Bv8) as [Fw8 Nw8].
    destruct zero_B2R as [Z1 Fz].
    set (xp := f64_sub (f64_add _ _) _) in *; set (xq := f64_add (f64_add _ _) _) in *; set (xl := f64_sub (f64_mul a1 c) _) in *; set (xm := f64_add (f64_mul a1 s) _) in *.
    set (w0 := f64_sub (f64_mul c v0) _) in *; set (w6 := f64_add (f64_mul s v0) _) in *.
    set (w1 := f64_sub (f64_mul c v1) _) in *; set (w7 := f64_add (f64_mul s v1) _) in *.
    set (w2 := f64_sub (f64_mul c v2) _) in *; set (w8 := f64_add (f64_mul s v2) _) in *.
    set (z := f64_of_Z 0) in *; clearbody xp xq xl xm w0 w6 w1 w7 w2 w8 z.
    eexists; split; [reflexivity|right]; split; [apply T2; reflexivity|].
    assert (U : 0 < uu) by (unfold uu; lra); assert (UM : 0 <= uu * M) by (apply Rmult_le_pos; lra); assert (UR : 0 <= uu * (r * r)) by (apply Rmult_le_pos; lra).
    pose proof (square_near _ _ C S _ _ r P AC AS R1 R4 Nrl Nrm) as Sq.
    split.
    - apply (frotated 3 0 2 A M r k [a0; a1; a2; a3; a4; a5] [v0; v1; v2; v3; v4; v5; v6; v7; v8] thr _ _ _ C S (B2R a3)); try lia; try assumption; try all_finite; try (split; reflexivity).
      + clear - U Nw0 Nw6 Nw1 Nw7 Nw2 Nw8; abs_hyps; mat_cases3; apply abs_le; rred; lra.
      + clear - UM Nxp Nxq Nxl Nxm Z0 Z1; abs_hyps; mat_cases3; apply abs_le; rred; try lra.
      + rewrite !off3; clear - UR Z1 Sq; abs_hyps; apply abs_le; revert Sq Z1; rred; intros Sq ->; lra.
    - rewrite !off3; clear - UR Z1 Sq; abs_hyps; revert Sq Z1; rred; intros Sq ->; lra.
  Qed.
  Lemma pair_F3_23 k (t : F64) st : (k <= 400)%nat -> is_finite t = true -> finv 3 A M r k st ->
    exists st', @pair_step F64 (f64_num L) 3 t st 2 3 = Ok st' /\ fstepped 3 1 2 A M r k t st st'.
  Proof.
    intros Hk Ftt H; pose proof Hsz as (HM & Hr & Hrr); pose proof lo_pos as LP.
    destruct (shaped3 st (proj1 H)) as (a0 & a1 & a2 & a3 & a4 & a5 & v0 & v1 & v2 & v3 & v4 & v5 & v6 & v7 & v8 & thr & ->).
    pose proof H as (_ & Fa & Fv & Ft & _); cbn [fst snd] in Fa, Fv, Ft.
    unfold finites in Fa, Fv; rewrite !Forall_cons_iff in Fa; rewrite !Forall_cons_iff in Fv.
    destruct Fa as (Fa0 & Fa1 & Fa2 & Fa3 & Fa4 & Fa5 & _); destruct Fv as (Fv0 & Fv1 & Fv2 & Fv3 & Fv4 & Fv5 & Fv6 & Fv7 & Fv8 & _).
    pose proof (fun i j => finv_a 3 A M r k _ i j H ltac:(lra) Hk) as Ba; pose proof (fun i j => finv_v 3 A M r k _ i j H Hk) as Bv.
    pose proof (finv_off _ _ _ _ _ _ H Hsz Hk) as [Bo Bt].
    pose proof (Ba 0%nat 0%nat ltac:(lia) ltac:(lia) : Rabs (B2R a0) <= 4 * M) as Ba0.
    pose proof (Ba 0%nat 1%nat ltac:(lia) ltac:(lia) : Rabs (B2R a1) <= 4 * M) as Ba1.
    pose proof (Ba 1%nat 1%nat ltac:(lia) ltac:(lia) : Rabs (B2R a2) <= 4 * M) as Ba2.
    pose proof (Ba 0%nat 2%nat ltac:(lia) ltac:(lia) : Rabs (B2R a3) <= 4 * M) as Ba3.
    pose proof (Ba 1%nat 2%nat ltac:(lia) ltac:(lia) : Rabs (B2R a4) <= 4 * M) as Ba4.
    pose proof (Ba 2%nat 2%nat ltac:(lia) ltac:(lia) : Rabs (B2R a5) <= 4 * M) as Ba5.
    pose proof (Bv 0%nat 0%nat ltac:(lia) ltac:(lia) : Rabs (B2R v0) <= 2) as Bv0.
    pose proof (Bv 0%nat 1%nat ltac:(lia) ltac:(lia) : Rabs (B2R v1) <= 2) as Bv1.
    pose proof (Bv 0%nat 2%nat ltac:(lia) ltac:(lia) : Rabs (B2R v2) <= 2) as Bv2.
    pose proof (Bv 1%nat 0%nat ltac:(lia) ltac:(lia) : Rabs (B2R v3) <= 2) as Bv3.
    pose proof (Bv 1%nat 1%nat ltac:(lia) ltac:(lia) : Rabs (B2R v4) <= 2) as Bv4.
    pose proof (Bv 1%nat 2%nat ltac:(lia) ltac:(lia) : Rabs (B2R v5) <= 2) as Bv5.
    pose proof (Bv 2%nat 0%nat ltac:(lia) ltac:(lia) : Rabs (B2R v6) <= 2) as Bv6.
    pose proof (Bv 2%nat 1%nat ltac:(lia) ltac:(lia) : Rabs (B2R v7) <= 2) as Bv7.
    pose proof (Bv 2%nat 2%nat ltac:(lia) ltac:(lia) : Rabs (B2R v8) <= 2) as Bv8.
    clear Ba Bv; rewrite off3 in Bo; change (B2R a1 * B2R a1 + B2R a3 * B2R a3 + B2R a4 * B2R a4 <= 51 / 100 * (r * r)) in Bo; change (Rabs (B2R thr) <= 52 / 100 * (r * r)) in Bt.
    pose proof (sq_ge0 (B2R a1)); pose proof (sq_ge0 (B2R a3)); pose proof (sq_ge0 (B2R a4)).
    assert (R1 : Rabs (B2R a1) <= r) by (apply sq_le; lra); assert (R3 : Rabs (B2R a3) <= r) by (apply sq_le; lra); assert (R4 : Rabs (B2R a4) <= r) by (apply sq_le; lra).
    rewrite pair3_23; fops; destruct (test_near a4 t r Fa4 Ftt R4 Hrr) as [T1 T2].
    destruct (Bltb (f64_mul a4 a4) t); [eexists; split; [reflexivity|left; split; [apply T1; reflexivity|reflexivity]]|].
    cbv zeta; destruct (rotation_angle L a4 a2 a5 (4 * M) Acc Fa4 Fa2 Fa5 Ba4 Ba2 Ba5 ltac:(lra)) as (C & S & Nc & Ns & P & AC & AS & Z0).
    set (x := angle a4 a2 a5) in *; set (c := m_cos L x) in *; set (s := m_sin L x) in *; clearbody c s; clear x.
    destruct (thr_near thr a4 r Ft Fa4 Bt R4 Hrr) as [Ft' Nt]; set (thr' := Babs _) in *; clearbody thr'.
    assert (K2 : 2 * lo <= 2 <= hi / 8) by (pose proof lo_hi as (_ & ? & _); assert (16 <= hi) by (change 16 with (bpow radix2 4); apply bpow_le; lia); lra).
    assert (K4 : 2 * lo <= 4 * M <= hi / 8) by lra.
    destruct (diag_minus c s C S Nc Ns AC AS _ K4 a2 a5 Fa2 Fa5 Ba2 Ba5 a4 Fa4 Ba4) as [Fxp Nxp].
    destruct (diag_plus c s C S Nc Ns AC AS _ K4 a2 a5 Fa2 Fa5 Ba2 Ba5 a4 Fa4 Ba4) as [Fxq Nxq].
    destruct (off_minus c s C S Nc Ns AC AS _ K4 a1 a3 Fa1 Fa3 Ba1 Ba3) as [Fxl Nxl].
    destruct (off_plus c s C S Nc Ns AC AS _ K4 a1 a3 Fa1 Fa3 Ba1 Ba3) as [Fxm Nxm].
    destruct (off_minus c s C S Nc Ns AC AS r Hr a1 a3 Fa1 Fa3 R1 R3) as [_ Nrl].
    destruct (off_plus c s C S Nc Ns AC AS r Hr a1 a3 Fa1 Fa3 R1 R3) as [_ Nrm].
    destruct (row_minus c s C S Nc Ns AC AS _ K2 v3 v6 Fv3 Fv6 Bv3 Bv6) as [Fw3 Nw3].
    destruct (row_plus c s C S Nc Ns AC AS _ K2 v3 v6 Fv3 Fv6 Bv3 Bv6) as [Fw6 Nw6].
    destruct (row_minus c s C S Nc Ns AC AS _ K2 v4 v7 Fv4 Fv7 Bv4 Bv7) as [Fw4 Nw4].
    destruct (row_plus c s C S Nc Ns AC AS _ K2 v4 v7 Fv4 Fv7 Bv4 Bv7) as [Fw7 Nw7].
    destruct (row_minus c s C S Nc Ns AC AS _ K2 v5 v8 Fv5 Fv8 Bv5 Bv8) as [Fw5 Nw5].
    destruct (row_plus c s C S Nc Ns AC AS _ K2 v5 v8 Fv5 Fv8 Bv5 Bv8) as [Fw8 Nw8].
    destruct zero_B2R as [Z1 Fz].
    set (xp := f64_sub (f64_add _ _) _) in *; set (xq := f64_add (f64_add _ _) _) in *; set (xl := f64_sub (f64_mul a1 c) _) in *; set (xm := f64_add (f64_mul a1 s) _) in *.
    set (w3 := f64_sub (f64_mul c v3) _) in *; set (w6 := f64_add (f64_mul s v3) _) in *.
    set (w4 := f64_sub (f64_mul c v4) _) in *; set (w7 := f64_add (f64_mul s v4) _) in *.
    set (w5 := f64_sub (f64_mul c v5) _) in *; set (w8 := f64_add (f64_mul s v5) _) in *.
    set (z := f64_of_Z 0) in *; clearbody xp xq xl xm w3 w6 w4 w7 w5 w8 z.
    eexists; split; [reflexivity|right]; split; [apply T2; reflexivity|].
    assert (U : 0 < uu) by (unfold uu; lra); assert (UM : 0 <= uu * M) by (apply Rmult_le_pos; lra); assert (UR : 0 <= uu * (r * r)) by (apply Rmult_le_pos; lra).
    pose proof (square_near _ _ C S _ _ r P AC AS R1 R3 Nrl Nrm) as Sq.
    split.
    - apply (frotated 3 1 2 A M r k [a0; a1; a2; a3; a4; a5] [v0; v1; v2; v3; v4; v5; v6; v7; v8] thr _ _ _ C S (B2R a4)); try lia; try assumption; try all_finite; try (split; reflexivity).
      + clear - U Nw3 Nw6 Nw4 Nw7 Nw5 Nw8; abs_hyps; mat_cases3; apply abs_le; rred; lra.
      + clear - UM Nxp Nxq Nxl Nxm Z0 Z1; abs_hyps; mat_cases3; apply abs_le; rred; try lra.
      + rewrite !off3; clear - UR Z1 Sq; abs_hyps; apply abs_le; revert Sq Z1; rred; intros Sq ->; lra.
    - rewrite !off3; clear - UR Z1 Sq; abs_hyps; revert Sq Z1; rred; intros Sq ->; lra.
  Qed.
End Steps.
