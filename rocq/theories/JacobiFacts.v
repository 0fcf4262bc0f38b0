(** * Jacobi's method over the reals: the invariant, and convergence. *)
From Verif Require Import Base Num RNum Spec BaseFacts LinSpec AlgebraFacts Eigen EigenFacts JacobiSpec.
From Coq Require Import Reals Lra Permutation.
From Flocq Require Import Core.Raux.
Open Scope R_scope.

(** the symmetric matrix packed by columns: 11, 12, 22, 13, 23, 33 *)
Definition colpk (a : list R) : Mat := fun i j => nth (Nat.max i j * (Nat.max i j + 1) / 2 + Nat.min i j)%nat a 0.
(** the sum of the squares above the diagonal *)
Definition off (n : nat) (B : Mat) : R := upto n (fun j => upto j (fun i => B i j * B i j)).
Definition trace (n : nat) (B : Mat) : R := upto n (fun i => B i i).
(** sum over k of |A v_k - lambda_k v_k|^2; [V k] is the k-th vector *)
Definition residual (n : nat) (A : Mat) (lam : nat -> R) (V : Mat) : R :=
  upto n (fun k => upto n (fun i => (upto n (fun j => A i j * V k j) - lam k * V k i) * (upto n (fun j => A i j * V k j) - lam k * V k i))).

(** ** The angle *)
Lemma angle_pythagoras x : cos x * cos x + sin x * sin x = 1.
Proof. pose proof (sin2_cos2 x) as H; unfold Rsqr in H; lra. Qed.
Lemma angle_zero (b p q : R) : let x := @angle R r_num b p q in sin x * cos x * (p - q) + (cos x * cos x - sin x * sin x) * b = 0.
Proof.
  intros x; unfold x, angle; cbn [n_eqb n_sub n_of_Z n_div n_opp n_atan n_mul n_add n_pi r_num].
  destruct (Req_bool_spec (p - q) (IZR 0)) as [E|E].
  - rewrite E. replace (- PI / IZR 4) with (- (PI / 4)) by field. rewrite cos_neg, sin_neg, sin_PI4, cos_PI4; ring.
  - set (th := atan _).
    replace (- th / IZR 2) with (- (th / 2)) by field; rewrite cos_neg, sin_neg.
    pose proof (sin_2a (th / 2)) as S2; pose proof (cos_2a (th / 2)) as C2; replace (2 * (th / 2)) with th in S2, C2 by field.
    assert (Hc : 0 < cos th).
    { destruct (atan_bound ((b + b) / (p - q))) as [H1 H2]; apply cos_gt_0; fold th in H1, H2; lra. }
    assert (Ht : sin th = (b + b) / (p - q) * cos th).
    { assert (Tt : tan th = (b + b) / (p - q)) by apply tan_atan.
      unfold tan in Tt; rewrite <- Tt; field; lra. }
    assert (Hs : sin th * (p - q) = 2 * b * cos th) by (rewrite Ht; field; exact E).
    replace (- sin (th / 2) * cos (th / 2) * (p - q) + (cos (th / 2) * cos (th / 2) - - sin (th / 2) * - sin (th / 2)) * b)
      with (- (2 * sin (th / 2) * cos (th / 2)) * (p - q) / 2 + (cos (th / 2) * cos (th / 2) - sin (th / 2) * sin (th / 2)) * b) by field.
    rewrite <- S2, <- C2; lra.
Qed.

(** ** Residual and trace in terms of the form in the basis *)
Lemma parseval n V (w : nat -> R) : orthonormal_cols n V -> upto n (fun i => w i * w i) = upto n (fun j => upto n (fun i => V j i * w i) * upto n (fun i => V j i * w i)).
Proof.
  intros H; symmetry.
  rewrite (upto_ext n _ (fun j => upto n (fun i => upto n (fun q => V j i * V j q * (w i * w q))))).
  2: { intros j Hj; rewrite <- upto_scal_r; apply upto_ext; intros i Hi; rewrite <- upto_scal; apply upto_ext; intros; ring. }
  rewrite upto_swap; apply upto_ext; intros i Hi; rewrite upto_swap.
  rewrite (upto_ext n _ (fun q => (w i * w q) * mat_id q i)); [apply (upto_delta n i (fun q => w i * w q) Hi)|].
  intros q Hq; rewrite upto_scal_r, <- (H q i Hq Hi), Rmult_comm; f_equal; unfold mat_mul, mat_t; apply upto_ext; intros; ring.
Qed.

Lemma residual_basis n A V B : orthonormal_rows n V -> orthonormal_cols n V -> in_basis n A V B ->
  residual n A (fun k => B k k) V = upto n (fun k => upto n (fun j => (B j k - B k k * mat_id j k) * (B j k - B k k * mat_id j k))).
Proof.
  intros Hr Hc Hb; unfold residual; apply upto_ext; intros k Hk.
  rewrite (parseval n V (fun i => upto n (fun j => A i j * V k j) - B k k * V k i) Hc).
  apply upto_ext; intros j Hj.
  assert (E : upto n (fun i => V j i * (upto n (fun j0 => A i j0 * V k j0) - B k k * V k i)) = B j k - B k k * mat_id j k).
  { rewrite (Hb j k Hj Hk), <- (Hr j k Hj Hk) at 1; unfold form, mat_mul, mat_t.
    transitivity (upto n (fun i => 1 * upto n (fun j0 => V j i * A i j0 * V k j0) + (- B k k) * (V j i * V k i))).
    - apply upto_ext; intros i Hi; rewrite (upto_ext n (fun j0 => V j i * A i j0 * V k j0) (fun j0 => V j i * (A i j0 * V k j0))) by (intros; ring); rewrite upto_scal; ring.
    - rewrite upto_lin; ring. }
  rewrite E; reflexivity.
Qed.

Lemma trace_basis n A V B : orthonormal_cols n V -> in_basis n A V B -> trace n B = trace n A.
Proof.
  intros Hc Hb; unfold trace.
  rewrite (upto_ext n _ (fun k => upto n (fun i => upto n (fun j => V k i * A i j * V k j)))) by (intros k Hk; apply Hb; assumption).
  rewrite upto_swap; apply upto_ext; intros i Hi; rewrite upto_swap.
  rewrite (upto_ext n _ (fun j => A i j * mat_id j i)); [apply (upto_delta n i (fun j => A i j) Hi)|].
  intros j Hj; rewrite <- (Hc j i Hj Hi); unfold mat_mul, mat_t; rewrite <- upto_scal; apply upto_ext; intros; ring.
Qed.

(** ** The invariant *)
Definition basis_inv (n : nat) (A : Mat) (st : @jacobi_state R) : Prop :=
  shaped (Z.of_nat n) st /\ in_basis n A (full n (snd (fst st))) (colpk (fst (fst st))) /\
  orthonormal_rows n (full n (snd (fst st))) /\ orthonormal_cols n (full n (snd (fst st))).
Definition jinv (n : nat) (A : Mat) (st : @jacobi_state R) : Prop := basis_inv n A st /\ snd st = off n (colpk (fst (fst st))).

Lemma in_basis_ext n A V V' B B' : mat_eq n V' V -> mat_eq n B' B -> in_basis n A V B -> in_basis n A V' B'.
Proof. intros EV EB H i j Hi Hj; rewrite EB by assumption; rewrite (H i j Hi Hj); symmetry; apply form_ext; intros q Hq; apply EV; assumption. Qed.
Lemma rows_ext n V V' : mat_eq n V' V -> orthonormal_rows n V -> orthonormal_rows n V'.
Proof. intros EV H i j Hi Hj; rewrite <- (H i j Hi Hj); unfold mat_mul, mat_t; apply upto_ext; intros q Hq; rewrite !EV by assumption; reflexivity. Qed.
Lemma cols_ext n V V' : mat_eq n V' V -> orthonormal_cols n V -> orthonormal_cols n V'.
Proof. intros EV H i j Hi Hj; rewrite <- (H i j Hi Hj); unfold mat_mul, mat_t; apply upto_ext; intros q Hq; rewrite !EV by assumption; reflexivity. Qed.

Ltac mat_cases2 := let i := fresh "i" in let j := fresh "j" in intros i j ? ?; destruct i as [|[|?]]; try lia; destruct j as [|[|?]]; try lia.
Ltac mat_cases3 := let i := fresh "i" in let j := fresh "j" in intros i j ? ?; destruct i as [|[|[|?]]]; try lia; destruct j as [|[|[|?]]]; try lia.
Ltac rops := cbn [n_add n_sub n_mul n_div n_opp n_abs n_sin n_cos n_of_Z n_ltb r_num].

(** one pair: nothing, or a rotation that clears the entry *)
Definition stepped (n l m : nat) (A : Mat) (t : R) (st st' : @jacobi_state R) : Prop :=
  let b := colpk (fst (fst st)) l m in
  (b * b < t /\ st' = st) \/
  (t <= b * b /\ basis_inv n A st' /\ off n (colpk (fst (fst st'))) = off n (colpk (fst (fst st))) - b * b /\ snd st' = Rabs (snd st - b * b)).

Lemma rotated n l m A a v thr a' v' c s b : (l < n)%nat -> (m < n)%nat -> l <> m -> c * c + s * s = 1 ->
  basis_inv n A ((a, v), thr) -> shaped (Z.of_nat n) ((a', v'), b) ->
  mat_eq n (full n v') (turn l m c s (full n v)) -> mat_eq n (colpk a') (turned l m c s (colpk a)) -> basis_inv n A ((a', v'), b).
Proof.
  intros Hl Hm Hlm Hcs (Sh & Hb & Hr & Hc) Sh' EV EB; cbn [fst snd] in *; split; [exact Sh'|cbn [fst snd]]; split; [|split].
  - apply (in_basis_ext n A _ _ _ _ EV EB), turned_in_basis; assumption.
  - apply (rows_ext n _ _ EV), turn_rows; assumption.
  - apply (cols_ext n _ _ EV), turn_cols; assumption.
Qed.

Ltac rot_finish := cbv [full turn turned mat_t colpk Nat.eqb Nat.max Nat.min nth Nat.add Nat.mul]; cbn [Nat.div Nat.divmod fst snd Nat.sub].

Lemma pair_R2 A t st : basis_inv 2 A st -> exists st', @pair_step R r_num 2 t st 1 2 = Ok st' /\ stepped 2 0 1 A t st st'.
Proof.
  intros H; destruct (shaped2 st (proj1 H)) as (a0 & a1 & a2 & v0 & v1 & v2 & v3 & thr & ->); rewrite pair2; rops.
  destruct (Rlt_bool_spec (a1 * a1) t) as [Hlt|Hge]; [eexists; split; [reflexivity|left; split; [exact Hlt|reflexivity]]|].
  cbv zeta; set (x := angle a1 a0 a2).
  pose proof (angle_zero a1 a0 a2) as Z0; cbv zeta in Z0; fold x in Z0; pose proof (angle_pythagoras x) as P.
  set (c := cos x) in *; set (s := sin x) in *; clearbody c s; clear x.
  eexists; split; [reflexivity|right]; split; [exact Hge|split; [|split]].
  - apply (rotated 2 0 1 A [a0; a1; a2] [v0; v1; v2; v3] thr _ _ c s); [lia|lia|lia|exact P|exact H|split; reflexivity| |].
    + mat_cases2; cbv; lra.
    + mat_cases2; cbv -[Rplus Rmult Rminus Ropp IZR]; try ring; rewrite <- Z0; ring.
  - cbv -[Rplus Rmult Rminus Ropp IZR]; ring.
  - reflexivity.
Qed.

Lemma pair_R3_12 A t st : basis_inv 3 A st -> exists st', @pair_step R r_num 3 t st 1 2 = Ok st' /\ stepped 3 0 1 A t st st'.
Proof.
  intros H; destruct (shaped3 st (proj1 H)) as (a0 & a1 & a2 & a3 & a4 & a5 & v0 & v1 & v2 & v3 & v4 & v5 & v6 & v7 & v8 & thr & ->); rewrite pair3_12; rops.
  destruct (Rlt_bool_spec (a1 * a1) t) as [Hlt|Hge]; [eexists; split; [reflexivity|left; split; [exact Hlt|reflexivity]]|].
  cbv zeta; set (x := angle a1 a0 a2).
  pose proof (angle_zero a1 a0 a2) as Z0; cbv zeta in Z0; fold x in Z0; pose proof (angle_pythagoras x) as P.
  set (c := cos x) in *; set (s := sin x) in *; clearbody c s; clear x.
  eexists; split; [reflexivity|right]; split; [exact Hge|split; [|split]].
  - apply (rotated 3 0 1 A [a0; a1; a2; a3; a4; a5] [v0; v1; v2; v3; v4; v5; v6; v7; v8] thr _ _ c s); [lia|lia|lia|exact P|exact H|split; reflexivity| |].
    + mat_cases3; cbv -[Rplus Rmult Rminus Ropp IZR]; ring.
    + mat_cases3; cbv -[Rplus Rmult Rminus Ropp IZR]; try ring; rewrite <- Z0; ring.
  - transitivity ((c * c + s * s) * (a3 * a3 + a4 * a4)); [cbv -[Rplus Rmult Rminus Ropp IZR]; ring|rewrite P; cbv -[Rplus Rmult Rminus Ropp IZR]; ring].
  - reflexivity.
Qed.

Lemma pair_R3_13 A t st : basis_inv 3 A st -> exists st', @pair_step R r_num 3 t st 1 3 = Ok st' /\ stepped 3 0 2 A t st st'.
Proof.
  intros H; destruct (shaped3 st (proj1 H)) as (a0 & a1 & a2 & a3 & a4 & a5 & v0 & v1 & v2 & v3 & v4 & v5 & v6 & v7 & v8 & thr & ->); rewrite pair3_13; rops.
  destruct (Rlt_bool_spec (a3 * a3) t) as [Hlt|Hge]; [eexists; split; [reflexivity|left; split; [exact Hlt|reflexivity]]|].
  cbv zeta; set (x := angle a3 a0 a5).
  pose proof (angle_zero a3 a0 a5) as Z0; cbv zeta in Z0; fold x in Z0; pose proof (angle_pythagoras x) as P.
  set (c := cos x) in *; set (s := sin x) in *; clearbody c s; clear x.
  eexists; split; [reflexivity|right]; split; [exact Hge|split; [|split]].
  - apply (rotated 3 0 2 A [a0; a1; a2; a3; a4; a5] [v0; v1; v2; v3; v4; v5; v6; v7; v8] thr _ _ c s); [lia|lia|lia|exact P|exact H|split; reflexivity| |].
    + mat_cases3; cbv -[Rplus Rmult Rminus Ropp IZR]; ring.
    + mat_cases3; cbv -[Rplus Rmult Rminus Ropp IZR]; try ring; rewrite <- Z0; ring.
  - transitivity ((c * c + s * s) * (a1 * a1 + a4 * a4)); [cbv -[Rplus Rmult Rminus Ropp IZR]; ring|rewrite P; cbv -[Rplus Rmult Rminus Ropp IZR]; ring].
  - reflexivity.
Qed.

Lemma pair_R3_23 A t st : basis_inv 3 A st -> exists st', @pair_step R r_num 3 t st 2 3 = Ok st' /\ stepped 3 1 2 A t st st'.
Proof.
  intros H; destruct (shaped3 st (proj1 H)) as (a0 & a1 & a2 & a3 & a4 & a5 & v0 & v1 & v2 & v3 & v4 & v5 & v6 & v7 & v8 & thr & ->); rewrite pair3_23; rops.
  destruct (Rlt_bool_spec (a4 * a4) t) as [Hlt|Hge]; [eexists; split; [reflexivity|left; split; [exact Hlt|reflexivity]]|].
  cbv zeta; set (x := angle a4 a2 a5).
  pose proof (angle_zero a4 a2 a5) as Z0; cbv zeta in Z0; fold x in Z0; pose proof (angle_pythagoras x) as P.
  set (c := cos x) in *; set (s := sin x) in *; clearbody c s; clear x.
  eexists; split; [reflexivity|right]; split; [exact Hge|split; [|split]].
  - apply (rotated 3 1 2 A [a0; a1; a2; a3; a4; a5] [v0; v1; v2; v3; v4; v5; v6; v7; v8] thr _ _ c s); [lia|lia|lia|exact P|exact H|split; reflexivity| |].
    + mat_cases3; cbv -[Rplus Rmult Rminus Ropp IZR]; ring.
    + mat_cases3; cbv -[Rplus Rmult Rminus Ropp IZR]; try ring; rewrite <- Z0; ring.
  - transitivity ((c * c + s * s) * (a1 * a1 + a3 * a3)); [cbv -[Rplus Rmult Rminus Ropp IZR]; ring|rewrite P; cbv -[Rplus Rmult Rminus Ropp IZR]; ring].
  - reflexivity.
Qed.

(** ** One sweep *)
Lemma stepped_basis n l m A t st st' : basis_inv n A st -> stepped n l m A t st st' -> basis_inv n A st'.
Proof. intros H [[_ ->]|(_ & H' & _)]; assumption. Qed.
Lemma stepped_off n l m A t st st' : stepped n l m A t st st' -> off n (colpk (fst (fst st'))) <= off n (colpk (fst (fst st))).
Proof. intros [[_ ->]|(_ & _ & E & _)]; [lra|rewrite E; pose proof (Rle_0_sqr (colpk (fst (fst st)) l m)) as Q; unfold Rsqr in Q; lra]. Qed.
Lemma upto_pos n f : (forall i, (i < n)%nat -> 0 <= f i) -> 0 <= upto n f.
Proof. intros H; induction n as [|n IH]; [unfold upto; cbn; lra|]; rewrite upto_S; pose proof (H n ltac:(lia)); assert (0 <= upto n f) by (apply IH; intros; apply H; lia); lra. Qed.
Lemma off_pos n B : 0 <= off n B.
Proof. unfold off; apply upto_pos; intros; apply upto_pos; intros i0 _; pose proof (Rle_0_sqr (B i0 i)); unfold Rsqr in *; assumption. Qed.
Lemma stepped_inv n l m A t st st' : jinv n A st -> stepped n l m A t st st' -> jinv n A st'.
Proof.
  intros [H E] [[_ ->]|(_ & H' & Eo & Es)]; [split; assumption|]; split; [exact H'|].
  rewrite Es, Eo, E; apply Rabs_right; rewrite <- Eo; apply Rle_ge, off_pos.
Qed.

Lemma off2 B : off 2 B = B 0%nat 1%nat * B 0%nat 1%nat.
Proof. unfold off, upto, total; cbn; ring. Qed.
Lemma off3 B : off 3 B = B 0%nat 1%nat * B 0%nat 1%nat + B 0%nat 2%nat * B 0%nat 2%nat + B 1%nat 2%nat * B 1%nat 2%nat.
Proof. unfold off, upto, total; cbn; ring. Qed.

(** the basis stays orthonormal and [thr] the off-diagonal norm; that norm shrinks by one sixth at least *)
Lemma sweep_R n A st : (n = 2 \/ n = 3)%nat -> basis_inv n A st ->
  exists st', @sweep R r_num (Z.of_nat n) st = Ok st' /\ basis_inv n A st' /\
    (jinv n A st -> 0 < snd st -> jinv n A st' /\ snd st' <= 5 / 6 * snd st).
Proof.
  intros [-> | ->] H.
  - change (Z.of_nat 2) with 2%Z; rewrite sweep2; set (t := n_div (snd st) (n_of_Z 3)).
    destruct (pair_R2 A t st H) as (s1 & E1 & S1); rewrite E1; cbn [obind]; exists s1; split; [reflexivity|split; [apply (stepped_basis _ _ _ _ _ _ _ H S1)|]].
    intros J Hpos; split; [apply (stepped_inv _ _ _ _ _ _ _ J S1)|].
    assert (Et : t = snd st / 3) by reflexivity.
    destruct (stepped_inv _ _ _ _ _ _ _ J S1) as [_ E']; destruct J as [_ E]; rewrite E', E.
    destruct S1 as [[Hlt _]|(Hge & _ & Eo & _)].
    + exfalso; rewrite Et, E, off2 in Hlt; rewrite E, off2 in Hpos; lra.
    + rewrite Eo, off2; rewrite Et, E, off2 in Hge; rewrite E, off2 in Hpos; lra.
  - change (Z.of_nat 3) with 3%Z; rewrite sweep3; cbv zeta; set (t := n_div (snd st) (n_of_Z 6)).
    destruct (pair_R3_12 A t st H) as (s1 & E1 & S1); rewrite E1; cbn [obind]; pose proof (stepped_basis _ _ _ _ _ _ _ H S1) as H1.
    destruct (pair_R3_13 A t s1 H1) as (s2 & E2 & S2); rewrite E2; cbn [obind]; pose proof (stepped_basis _ _ _ _ _ _ _ H1 S2) as H2.
    destruct (pair_R3_23 A t s2 H2) as (s3 & E3 & S3); rewrite E3; cbn [obind]; pose proof (stepped_basis _ _ _ _ _ _ _ H2 S3) as H3.
    exists s3; split; [reflexivity|split; [exact H3|]].
    intros J Hpos; pose proof (stepped_inv _ _ _ _ _ _ _ J S1) as J1; pose proof (stepped_inv _ _ _ _ _ _ _ J1 S2) as J2; pose proof (stepped_inv _ _ _ _ _ _ _ J2 S3) as J3.
    split; [exact J3|]; assert (Et : t = snd st / 6) by reflexivity.
    destruct J as [_ E]; destruct J3 as [_ E']; rewrite E', E; rewrite E in Hpos, Et.
    pose proof (stepped_off _ _ _ _ _ _ _ S2) as O2; pose proof (stepped_off _ _ _ _ _ _ _ S3) as O3.
    destruct S1 as [[L1 ->]|(G1 & _ & Eo1 & _)]; [|lra].
    destruct S2 as [[L2 ->]|(G2 & _ & Eo2 & _)]; [|lra].
    destruct S3 as [[L3 ->]|(G3 & _ & Eo3 & _)]; [|lra].
    exfalso; rewrite Et in L1, L2, L3; revert L1 L2 L3 Hpos; rewrite !off3.
    set (u := colpk _ 0%nat 1%nat * _); set (w := colpk _ 0%nat 2%nat * _); set (z := colpk _ 1%nat 2%nat * _); intros; lra.
Qed.

(** ** The iteration *)
Lemma sweeps_basis n A bound left : (n = 2 \/ n = 3)%nat -> forall done st, basis_inv n A st ->
  exists st' d, @sweeps R r_num (Z.of_nat n) bound left done st = Ok (st', d) /\ basis_inv n A st'.
Proof.
  intros Hn; induction left as [|left IH]; intros done st H; cbn [sweeps]; [eauto|].
  destruct (n_ltb bound (snd st)); [|eauto].
  destruct (sweep_R n A st Hn H) as (s1 & E1 & H1 & _); rewrite E1; cbn [obind]; apply IH, H1.
Qed.
Lemma power_small : (5 / 6) ^ 64 <= / 100000.
Proof.
  assert (H16 : 0 <= (5 / 6) ^ 16 <= 541 / 10000) by (split; [apply pow_le; lra|cbn [pow]; lra]).
  replace 64%nat with (16 * 4)%nat by reflexivity; rewrite pow_mult.
  apply Rle_trans with ((541 / 10000) ^ 4); [apply pow_incr; exact H16|cbn [pow]; lra].
Qed.
Lemma sweeps_converge n A off0 : (n = 2 \/ n = 3)%nat -> 0 <= off0 -> forall left k st, jinv n A st -> snd st <= (5 / 6) ^ k * off0 -> (k <= 64)%nat -> (64 <= k + left)%nat ->
  exists st' k', @sweeps R r_num (Z.of_nat n) (off0 * / 100000) left (Z.of_nat k) st = Ok (st', Z.of_nat k') /\ jinv n A st' /\ snd st' <= off0 * / 100000 /\ (k' <= 64)%nat.
Proof.
  intros Hn H0; induction left as [|left IH]; intros k st J Hs Hk Hl; cbn [sweeps].
  - exists st, k; split; [reflexivity|split; [exact J|split; [|exact Hk]]]; assert (k = 64%nat) as -> by lia.
    apply Rle_trans with ((5 / 6) ^ 64 * off0); [exact Hs|rewrite Rmult_comm; apply Rmult_le_compat_l; [exact H0|exact power_small]].
  - cbn [n_ltb r_num]; destruct (Rlt_bool_spec (off0 * / 100000) (snd st)) as [Hlt|Hge]; [|exists st, k; repeat split; try assumption; apply J].
    assert (Hk' : (k < 64)%nat).
    { destruct (Nat.eq_dec k 64) as [->|]; [exfalso|lia].
      pose proof power_small; assert ((5 / 6) ^ 64 * off0 <= / 100000 * off0) by (apply Rmult_le_compat_r; assumption); lra. }
    destruct (sweep_R n A st Hn (proj1 J)) as (s1 & E1 & _ & C); destruct (C J) as [J1 L1].
    { destruct (Rle_lt_or_eq_dec 0 off0 H0); [|subst off0]; pose proof (Rinv_0_lt_compat 100000 ltac:(lra)); nra. }
    rewrite E1; cbn [obind]; replace (Z.of_nat k + 1)%Z with (Z.of_nat (S k)) by lia; apply IH; [exact J1| |lia|lia].
    cbn [pow]; rewrite Rmult_assoc; lra.
Qed.

Lemma identity_basis n a thr : (n = 2 \/ n = 3)%nat -> len a = (Z.of_nat n * (Z.of_nat n + 1) / 2)%Z -> basis_inv n (colpk a) ((a, @identity R r_num (Z.of_nat n)), thr).
Proof.
  intros [-> | ->] L.
  - destruct (len3 a L) as (a0 & a1 & a2 & ->).
    split; [split; reflexivity|cbn [fst snd]]; split; [|split]; mat_cases2; cbv -[Rplus Rmult Rminus Ropp IZR]; ring.
  - destruct (len6 a L) as (a0 & a1 & a2 & a3 & a4 & a5 & ->).
    split; [split; reflexivity|cbn [fst snd]]; split; [|split]; mat_cases3; cbv -[Rplus Rmult Rminus Ropp IZR]; ring.
Qed.

Lemma jacobi_R n a : (n = 2 \/ n = 3)%nat -> len a = (Z.of_nat n * (Z.of_nat n + 1) / 2)%Z ->
  exists st k, @jacobi R r_num (Z.of_nat n) a = Ok (st, Z.of_nat k) /\ jinv n (colpk a) st /\ snd st <= off n (colpk a) * / 100000 /\ (k <= 64)%nat.
Proof.
  intros Hn L.
  assert (G : forall nrm, nrm = off n (colpk a) -> exists st k,
    (if negb (Req_bool nrm (IZR 0)) then @sweeps R r_num (Z.of_nat n) (nrm * @eps R r_num) 100 0 ((a, @identity R r_num (Z.of_nat n)), nrm) else Ok (((a, @identity R r_num (Z.of_nat n)), nrm), 0%Z)) = Ok (st, Z.of_nat k) /\
    jinv n (colpk a) st /\ snd st <= off n (colpk a) * / 100000 /\ (k <= 64)%nat).
  { intros nrm E; assert (J : jinv n (colpk a) ((a, @identity R r_num (Z.of_nat n)), nrm)) by (split; [apply identity_basis; assumption|exact E]).
    destruct (Req_bool_spec nrm (IZR 0)) as [Ez|Ez]; cbn [negb].
    - exists ((a, @identity R r_num (Z.of_nat n)), nrm), 0%nat; split; [reflexivity|split; [exact J|split; [|lia]]]; rewrite <- E, Ez; cbn [snd]; lra.
    - assert (Ee : nrm * @eps R r_num = off n (colpk a) * / 100000).
      { rewrite E; f_equal; unfold eps; cbn; lra. }
      rewrite Ee; change 0%Z with (Z.of_nat 0); apply (sweeps_converge n (colpk a) (off n (colpk a)) Hn (off_pos _ _) 100 0); [exact J|cbn [snd pow]; rewrite E; lra|lia|lia]. }
  destruct Hn as [-> | ->].
  - destruct (len3 a L) as (a0 & a1 & a2 & ->); change (Z.of_nat 2) with 2%Z; rewrite jacobi2; apply G; cbn [n_add n_of_Z n_mul r_num]; rewrite off2; cbv -[Rplus Rmult Rminus Ropp IZR]; ring.
  - destruct (len6 a L) as (a0 & a1 & a2 & a3 & a4 & a5 & ->); change (Z.of_nat 3) with 3%Z; rewrite jacobi3; apply G; cbn [n_add n_of_Z n_mul r_num]; rewrite off3; cbv -[Rplus Rmult Rminus Ropp IZR]; ring.
Qed.
