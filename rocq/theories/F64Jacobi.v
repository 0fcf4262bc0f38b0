(** * binary64: Jacobi's method, step by step. *)
From Coq Require Import Reals Lra Psatz.
From Flocq Require Import Core IEEE754.BinarySingleNaN.
From Verif Require Import Base Num Spec F64 F64Facts F64Arith F64Round LinSpec BaseFacts AlgebraFacts Eigen EigenFacts JacobiSpec JacobiFacts.
From Verif Require Import F64Error F64Angle F64Rot.
Open Scope R_scope.

Definition finites (l : list F64) : Prop := Forall (fun x => is_finite x = true) l.
(** the matrices of a state *)
Definition amat (st : @jacobi_state F64) : Mat := colpk (map B2R (fst (fst st))).
Definition vmat (n : nat) (st : @jacobi_state F64) : Mat := full n (map B2R (snd (fst st))).
Definition fthr (st : @jacobi_state F64) : R := B2R (snd st).

(** after [k] rotations: the state is near an exact orthonormal basis [Q] and the exact form [B] of [A] in it *)
Definition steps (k : nat) : R := INR k + 1.
Definition finv (n : nat) (A : Mat) (M r : R) (k : nat) (st : @jacobi_state F64) : Prop :=
  shaped (Z.of_nat n) st /\ finites (fst (fst st)) /\ finites (snd (fst st)) /\ is_finite (snd st) = true /\
  (exists Q B, in_basis n A Q B /\ orthonormal_rows n Q /\ orthonormal_cols n Q /\ fro2 n B <= (3 * M) * (3 * M) /\
     fro2 n (minus (vmat n st) Q) <= (steps k * 64 * uu) * (steps k * 64 * uu) /\
     fro2 n (minus (amat st) B) <= (steps k * 512 * uu * M) * (steps k * 512 * uu * M)) /\
  Rabs (fthr st - off n (amat st)) <= steps k * 100 * uu * (r * r) /\ off n (amat st) <= r * r / 2 + steps k * 100 * uu * (r * r).

Definition sizes (M r : R) : Prop := 2 * lo <= M <= hi / 128 /\ 2 * lo <= r <= hi / 8 /\ lo <= r * r <= hi / 8.

Lemma steps_S k : steps (S k) = steps k + 1.
Proof. unfold steps; rewrite S_INR; ring. Qed.
Lemma steps_range k : (k <= 400)%nat -> 1 <= steps k <= 401.
Proof. intros H; apply le_INR in H; pose proof (pos_INR k); unfold steps; replace (INR 400) with 400 in H by (rewrite INR_IZR_INZ; reflexivity); lra. Qed.
Lemma steps_uu k c : (k <= 400)%nat -> 0 <= c <= 1000 -> 0 <= steps k * c * uu <= / 10000000000.
Proof. intros H Hc; pose proof (steps_range k H); assert (0 <= steps k * c <= 401 * 1000) by (split; nra); unfold uu; lra. Qed.

Lemma frotated n l m A M r k a v thr a' v' thr' C S b : (n = 2 \/ n = 3)%nat -> (l < n)%nat -> (m < n)%nat -> l <> m -> C * C + S * S = 1 -> sizes M r -> (k <= 400)%nat ->
  finv n A M r k ((a, v), thr) -> shaped (Z.of_nat n) ((a', v'), thr') -> finites a' -> finites v' -> is_finite thr' = true ->
  (forall i j, (i < n)%nat -> (j < n)%nat -> Rabs (full n (map B2R v') i j - turn l m C S (full n (map B2R v)) i j) <= 20 * uu) ->
  (forall i j, (i < n)%nat -> (j < n)%nat -> Rabs (colpk (map B2R a') i j - turned l m C S (colpk (map B2R a)) i j) <= 165 * uu * M) ->
  Rabs (off n (colpk (map B2R a')) - (off n (colpk (map B2R a)) - b * b)) <= 80 * uu * (r * r) ->
  Rabs (B2R thr' - Rabs (B2R thr - b * b)) <= 4 * uu * (r * r) ->
  finv n A M r (Datatypes.S k) ((a', v'), thr').
Proof.
  intros Hn Hl Hm Hlm Hcs (HM & Hr & Hrr) Hk (Sh & Fa & Fv & Ft & (Q & B & HB & Or & Oc & FB & EV & EA) & Ht & Ho) Sh' Fa' Fv' Ft' HV HA HO HT.
  unfold amat, vmat, fthr in *; cbn [fst snd] in *.
  assert (U : 0 < uu) by (unfold uu; lra); pose proof lo_pos as LP; pose proof (steps_range k Hk) as Sk.
  assert (Nn : 0 < INR n <= 3) by (destruct Hn as [-> | ->]; cbn; lra).
  split; [exact Sh'|]; split; [exact Fa'|]; split; [exact Fv'|]; split; [exact Ft'|]; split; [|rewrite steps_S; split].
  - exists (turn l m C S Q), (turned l m C S B); split; [apply turned_in_basis; assumption|]; split; [apply turn_rows; assumption|]; split; [apply turn_cols; assumption|].
    split; [rewrite fro2_turned by assumption; exact FB|]; split.
    + apply Rle_trans with ((steps k * 64 * uu + INR n * (20 * uu)) * (steps k * 64 * uu + INR n * (20 * uu))).
      * apply (turn_close n l m C S (full n (map B2R v))); try assumption; try lia; try nra.
      * rewrite steps_S; apply Rmult_le_compat; try nra.
    + assert (UM : 0 < uu * M) by (apply Rmult_lt_0_compat; lra).
      assert (P : 0 < steps k * 512 * uu * M) by (replace (steps k * 512 * uu * M) with (steps k * 512 * (uu * M)) by ring; apply Rmult_lt_0_compat; lra).
      apply Rle_trans with ((steps k * 512 * uu * M + INR n * (165 * uu * M)) * (steps k * 512 * uu * M + INR n * (165 * uu * M))).
      * apply (turned_close n l m C S (colpk (map B2R a))); try assumption; try lia; try lra.
      * assert (INR n * (165 * uu * M) <= 3 * (165 * uu * M)) by (apply Rmult_le_compat_r; lra).
        assert (0 <= INR n * (165 * uu * M)) by (apply Rmult_le_pos; lra).
        rewrite steps_S; apply Rmult_le_compat; lra.
  - pose proof (off_pos n (colpk (map B2R a'))) as Op.
    assert (UR : 0 <= uu * (r * r)) by (apply Rmult_le_pos; lra).
    set (o' := off n (colpk (map B2R a'))) in *; set (o := off n (colpk (map B2R a))) in *.
    apply abs_le in Ht, HT, HO; apply abs_le.
    assert (G : Rabs (B2R thr - b * b) <= o' + (steps k * 100 * uu * (r * r) + 80 * uu * (r * r))) by (apply abs_le; lra).
    pose proof (Rle_abs (B2R thr - b * b)); change (- ((steps k + 1) * 100 * uu * (r * r)) <= B2R thr' - o' <= (steps k + 1) * 100 * uu * (r * r)); lra.
  - assert (UR : 0 <= uu * (r * r)) by (apply Rmult_le_pos; lra); apply abs_le in HO; pose proof (Rle_0_sqr b) as B2; unfold Rsqr in B2; change (off n (amat (a', v', thr'))) with (off n (colpk (map B2R a'))); lra.
Qed.

(** bounds of the entries *)
Lemma rows_entry n Q i j : orthonormal_rows n Q -> (i < n)%nat -> (j < n)%nat -> Rabs (Q i j) <= 1.
Proof.
  intros H Hi Hj; specialize (H i i Hi Hi); unfold mat_mul, mat_t, mat_id in H; rewrite Nat.eqb_refl in H.
  pose proof (upto_ge1 n (fun k => Q i k * Q i k) j ltac:(intros; apply sq_ge0) Hj) as G; cbv beta in G; rewrite H in G.
  rewrite <- (Rabs_pos_eq 1) by lra; apply Rsqr_le_abs_0; unfold Rsqr; lra.
Qed.
Lemma finv_v n A M r k st i j : finv n A M r k st -> (k <= 400)%nat -> (i < n)%nat -> (j < n)%nat -> Rabs (vmat n st i j) <= 2.
Proof.
  intros (_ & _ & _ & _ & (Q & B & _ & Or & _ & _ & EV & _) & _) Hk Hi Hj; pose proof (steps_uu k 64 Hk ltac:(lra)) as S1.
  pose proof (fro2_entry _ _ i j _ EV ltac:(lra) Hi Hj) as E; pose proof (rows_entry n Q i j Or Hi Hj) as F; unfold minus in E.
  apply abs_le in E, F; apply abs_le; lra.
Qed.
Lemma finv_a n A M r k st i j : finv n A M r k st -> 0 <= M -> (k <= 400)%nat -> (i < n)%nat -> (j < n)%nat -> Rabs (amat st i j) <= 4 * M.
Proof.
  intros (_ & _ & _ & _ & (Q & B & _ & _ & _ & FB & _ & EA) & _) HM Hk Hi Hj; pose proof (steps_uu k 512 Hk ltac:(lra)) as S1.
  assert (P : 0 <= steps k * 512 * uu * M <= / 10000000000 * M) by (split; [apply Rmult_le_pos; lra|apply Rmult_le_compat_r; lra]).
  pose proof (fro2_entry _ _ i j _ EA ltac:(lra) Hi Hj) as E; pose proof (fro2_entry _ _ i j _ FB ltac:(lra) Hi Hj) as F; unfold minus in E.
  apply abs_le in E, F; apply abs_le; lra.
Qed.
Lemma finv_off n A M r k st : finv n A M r k st -> sizes M r -> (k <= 400)%nat -> off n (amat st) <= 51 / 100 * (r * r) /\ Rabs (fthr st) <= 52 / 100 * (r * r).
Proof.
  intros (_ & _ & _ & _ & _ & Ht & Ho) (_ & _ & Hr) Hk; pose proof (steps_uu k 100 Hk ltac:(lra)) as S1; pose proof lo_pos.
  assert (P : 0 <= steps k * 100 * uu * (r * r) <= / 10000000000 * (r * r)) by (split; [apply Rmult_le_pos; lra|apply Rmult_le_compat_r; lra]).
  pose proof (off_pos n (amat st)); split; [lra|]; apply abs_le in Ht; apply abs_le; lra.
Qed.
Lemma sq_le x r : 0 <= r -> x * x <= r * r -> Rabs x <= r.
Proof. intros Hr H; rewrite <- (Rabs_pos_eq r Hr); apply Rsqr_le_abs_0; exact H. Qed.

(** what a rotation does to the norm off the diagonal and to [thr] *)
Lemma square_near x y C S xx yy r : C * C + S * S = 1 -> Rabs C <= 1 -> Rabs S <= 1 -> Rabs x <= r -> Rabs y <= r ->
  Rabs (xx - (C * x - S * y)) <= 9 * uu * r -> Rabs (yy - (S * x + C * y)) <= 9 * uu * r ->
  Rabs (xx * xx + yy * yy - (x * x + y * y)) <= 80 * uu * (r * r).
Proof.
  intros P AC AS Hx Hy H1 H2.
  assert (R0 : 0 <= r) by (apply Rle_trans with (1 := Rabs_pos x); exact Hx).
  assert (N1 : Rabs (C * x - S * y) <= 2 * r) by (pose proof (prod_le _ _ _ _ AC Hx) as G1; pose proof (prod_le _ _ _ _ AS Hy) as G2; apply abs_le in G1, G2; apply abs_le; lra).
  assert (N2 : Rabs (S * x + C * y) <= 2 * r) by (pose proof (prod_le _ _ _ _ AS Hx) as G1; pose proof (prod_le _ _ _ _ AC Hy) as G2; apply abs_le in G1, G2; apply abs_le; lra).
  set (d1 := xx - (C * x - S * y)) in *; set (d2 := yy - (S * x + C * y)) in *.
  replace (xx * xx + yy * yy - (x * x + y * y)) with (2 * ((C * x - S * y) * d1) + d1 * d1 + (2 * ((S * x + C * y) * d2) + d2 * d2) + (C * C + S * S - 1) * (x * x + y * y)) by (unfold d1, d2; ring).
  rewrite P; pose proof (prod_le _ _ _ _ N1 H1) as G1; pose proof (prod_le _ _ _ _ N2 H2) as G2; pose proof (prod_le _ _ _ _ H1 H1) as G3; pose proof (prod_le _ _ _ _ H2 H2) as G4.
  assert (T : 9 * uu * r * (9 * uu * r) <= / 1000000 * (uu * (r * r))).
  { replace (9 * uu * r * (9 * uu * r)) with ((81 * uu) * (uu * (r * r))) by ring; apply Rmult_le_compat_r; [|unfold uu; lra].
    apply Rmult_le_pos; [unfold uu; lra|nra]. }
  assert (V : 0 <= uu * (r * r)) by (apply Rmult_le_pos; [unfold uu; lra|nra]).
  apply abs_le in G1, G2, G3, G4; apply abs_le; lra.
Qed.
Lemma thr_near (thr b : F64) r : is_finite thr = true -> is_finite b = true -> Rabs (B2R thr) <= 52 / 100 * (r * r) -> Rabs (B2R b) <= r -> lo <= r * r <= hi / 8 ->
  is_finite (Babs (f64_sub thr (f64_mul b b))) = true /\ Rabs (B2R (Babs (f64_sub thr (f64_mul b b))) - Rabs (B2R thr - B2R b * B2R b)) <= 4 * uu * (r * r).
Proof.
  intros Ft Fb Ht Hb Hr; assert (U : 0 < uu < / 1000000) by (unfold uu; lra); pose proof lo_pos.
  assert (N1 : nearby (f64_mul b b) (B2R b * B2R b) (uu * (r * r)))
    by (apply (mul_near b b _ _ 0 0 r r (r * r) _ (nearby_self b Fb) (nearby_self b Fb) Hb Hb); lra).
  assert (N2 : nearby (f64_sub thr (f64_mul b b)) (B2R thr - B2R b * B2R b) (4 * uu * (r * r))).
  { pose proof (prod_le _ _ _ _ Hb Hb) as G.
    assert (U1 : 0 <= uu * (r * r) <= / 1000000 * (r * r)) by (split; [apply Rmult_le_pos; lra|apply Rmult_le_compat_r; lra]).
    apply (sub_near thr _ _ _ 0 (uu * (r * r)) (21 / 10 * (r * r)) _ (nearby_self thr Ft) N1); try split; try lra.
    assert (Rabs (B2R thr - B2R b * B2R b) <= 152 / 100 * (r * r)) by (apply abs_le in Ht, G; apply abs_le; lra); lra. }
  destruct N2 as [F N2]; rewrite is_finite_Babs, B2R_Babs; split; [exact F|].
  apply Rle_trans with (2 := N2), Rabs_triang_inv2.
Qed.
