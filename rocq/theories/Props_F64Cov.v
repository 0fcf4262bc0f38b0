(** * C161: accuracy of covariance in binary64.

    The covariance is computed in two passes: means first, then the products of the deviations.  The error of the means enters the
    result only as the product of the two errors, because exact deviations add up to zero. *)
From Verif Require Import Base Num Serie Spec BaseFacts SerieFacts Functional FunctionalFacts Mathf Stats StatsFacts.
From Verif Require Import RNum F64 F64Facts F64Arith F64Round F64Error Props_MultDiv Props_Functional Props_Mean Props_F64Sum.
From Flocq Require Import Core IEEE754.BinarySingleNaN.
From Coq Require Import Reals Lra Psatz.
Open Scope R_scope.
Opaque f64_of_Z.

(** the sizes that are covered *)
Definition moderate_size (A : R) : Prop := bpow radix2 (-400) <= A <= bpow radix2 400.
(** the exact covariance of two lists of numbers *)
Definition cov (xs ys : list R) : R := sumR (map2 (fun a b => (a - avg xs) * (b - avg ys)) xs ys) / IZR (len xs).
(** the error of the mean of n numbers of size at most A *)
Definition mean_error (n A : R) : R := (2 * n + 2) * / 2 ^ 53 * A.

Lemma sum_near (e c B : R) fs rs : 0 <= e -> 0 <= c -> Forall2 (fun f r => nearby f r e /\ Rabs r <= c) fs rs -> lo <= B <= hi -> forall acc racc d,
  nearby acc racc d -> Rabs racc + d + INR (length fs) * (c + e + uu * B) <= B ->
  nearby (fold_left f64_add fs acc) (racc + sumR rs) (d + INR (length fs) * (e + uu * B)).
Proof.
  intros He Hc; induction 1 as [|f r fs rs [Hf Hr] F IH]; intros HB acc racc d Ha Hs.
  - cbn [fold_left length INR]; unfold sumR; cbn [fold_right]; rewrite Rmult_0_l, !Rplus_0_r; exact Ha.
  - cbn [fold_left]; rewrite (S_INR (length fs) : INR (length (f :: fs)) = _) in *.
    assert (U : 0 < uu) by (unfold uu; lra); pose proof lo_pos as LP; pose proof (pos_INR (length fs)) as PI.
    assert (N : 0 <= INR (length fs) * (c + e + uu * B)) by (apply Rmult_le_pos; [exact PI|]; assert (0 <= uu * B) by (apply Rmult_le_pos; lra); lra).
    assert (UB : 0 <= uu * B) by (apply Rmult_le_pos; lra).
    assert (T : Rabs (racc + r) <= Rabs racc + c) by (apply Rle_trans with (1 := Rabs_triang _ _); lra).
    specialize (IH HB (f64_add acc f) (racc + r) (d + e + uu * B)).
    replace (racc + sumR (r :: rs)) with (racc + r + sumR rs) by (unfold sumR; cbn [fold_right]; ring).
    replace (d + (INR (length fs) + 1) * (e + uu * B)) with (d + e + uu * B + INR (length fs) * (e + uu * B)) by ring.
    apply IH; [|lra]; apply (add_near _ _ _ _ d e B); [exact Ha|exact Hf|lra|exact HB|lra].
Qed.
Lemma div_n_near x r d n B t : nearby x r d -> (1 <= n < 2 ^ 32)%Z -> Rabs (r / IZR n) + d / IZR n <= B -> lo <= B <= hi -> d / IZR n + uu * B <= t ->
  nearby (f64_div x (f64_of_Z n)) (r / IZR n) t.
Proof.
  intros [Fx Hx] Hn HB Hr Ht; destruct (f64_of_Z_correct n ltac:(lia)) as (E & _ & _).
  assert (Pn : 0 < IZR n) by (apply IZR_lt; lia).
  assert (D : Rabs (B2R x / IZR n - r / IZR n) <= d / IZR n).
  { replace (B2R x / IZR n - r / IZR n) with ((B2R x - r) * / IZR n) by (unfold Rdiv; ring).
    rewrite Rabs_mult, (Rabs_pos_eq (/ IZR n)) by (apply Rlt_le, Rinv_0_lt_compat, Pn); apply Rmult_le_compat_r; [apply Rlt_le, Rinv_0_lt_compat, Pn|exact Hx]. }
  assert (A : Rabs (B2R x / IZR n) <= B).
  { replace (B2R x / IZR n) with (r / IZR n + (B2R x / IZR n - r / IZR n)) by ring; apply Rle_trans with (1 := Rabs_triang _ _); lra. }
  destruct (div_ok x (f64_of_Z n) Fx) as [E' F]; [rewrite E; lra|rewrite E; apply small_range; lra|].
  split; [exact F|]; rewrite E', E; pose proof (rnd_err _ B A ltac:(lra)) as Q; apply abs_le in Q, D; apply abs_le; lra.
Qed.

Lemma zero_near : nearby (f64_of_Z 0) 0 0.
Proof. destruct (f64_of_Z_correct 0 ltac:(lia)) as (E & F & _); split; [exact F|rewrite E, Rminus_0_r, Rabs_R0; lra]. Qed.
Lemma sum_bound c rs : Forall (fun r => Rabs r <= c) rs -> Rabs (sumR rs) <= INR (length rs) * c.
Proof.
  induction 1 as [|r rs H F IH]; [cbn; rewrite Rabs_R0; lra|]; rewrite (S_INR (length rs) : INR (length (r :: rs)) = _).
  change (sumR (r :: rs)) with (r + sumR rs); apply Rle_trans with (1 := Rabs_triang _ _); lra.
Qed.
Lemma INR_len {X} (l : list X) : INR (length l) = IZR (len l). Proof. unfold len; apply INR_IZR_INZ. Qed.
Lemma moderate_bounds A : moderate_size A -> 0 < A /\ lo * 4294967296 * 4294967296 <= A * A /\ lo <= A /\ A <= bpow radix2 400.
Proof.
  intros [H1 H2]; pose proof (bpow_gt_0 radix2 (-400)) as P.
  assert (E : lo * 4294967296 * 4294967296 <= bpow radix2 (-400) * bpow radix2 (-400)).
  { change 4294967296 with (bpow radix2 32); unfold lo; rewrite <- !bpow_plus; apply bpow_le; lia. }
  assert (bpow radix2 (-400) * bpow radix2 (-400) <= A * A) by (apply Rmult_le_compat; lra).
  assert (lo <= bpow radix2 (-400)) by (unfold lo; apply bpow_le; lia).
  repeat split; lra.
Qed.

Lemma mean_near xs A : xs <> [] -> (len xs < 2 ^ 32)%Z -> Forall (fun x => is_finite x = true /\ Rabs (B2R x) <= A) xs -> moderate_size A ->
  nearby (f64_div (fold_left f64_add xs (f64_of_Z 0)) (f64_of_Z (len xs))) (avg (map B2R xs)) (mean_error (IZR (len xs)) A).
Proof.
  intros Hne Hl Hx HA; destruct (moderate_bounds A HA) as (PA & _ & LA & UA).
  assert (N1 : (1 <= len xs)%Z) by (destruct xs; [congruence|rewrite len_cons; pose proof (len_nonneg xs); lia]).
  set (n := IZR (len xs)); assert (B1 : 1 <= n) by (apply IZR_le; lia); assert (B2 : n < 4294967296) by (apply (IZR_lt _ (2 ^ 32)); lia).
  assert (U : uu = / 2 ^ 53) by (unfold uu; lra); assert (Nu : n * uu <= / 2097152) by (unfold uu; lra); assert (Up : 0 < uu) by (unfold uu; lra).
  assert (HiB : 2 * n * A <= hi).
  { unfold hi; apply Rle_trans with (8589934592 * bpow radix2 400); [apply Rmult_le_compat; lra|]; change 8589934592 with (bpow radix2 33); rewrite <- bpow_plus; apply bpow_le; lia. }
  assert (nA : A <= n * A) by (rewrite <- (Rmult_1_l A) at 1; apply Rmult_le_compat_r; lra).
  assert (P2 : n * (uu * (2 * n * A)) = 2 * (n * uu) * (n * A)) by ring.
  assert (Q2 : n * uu * (n * A) <= / 2097152 * (n * A)) by (apply Rmult_le_compat_r; lra).
  assert (S : nearby (fold_left f64_add xs (f64_of_Z 0)) (0 + sumR (map B2R xs)) (0 + INR (length xs) * (0 + uu * (2 * n * A)))).
  { apply (sum_near 0 A (2 * n * A)); [lra|lra| |lra|exact zero_near|].
    - clear - Hx; induction Hx as [|x xs [F H] Hx IH]; cbn [map]; constructor; [split; [apply nearby_self, F|exact H]|exact IH].
    - rewrite INR_len, Rabs_R0; change (IZR (len xs)) with n; clearbody n; lra. }
  rewrite INR_len in S; change (IZR (len xs)) with n in S; rewrite !Rplus_0_l in S.
  assert (Bs : Rabs (sumR (map B2R xs)) <= n * A).
  { unfold n; rewrite <- INR_len, <- (map_length B2R xs); apply sum_bound; clear - Hx; induction Hx as [|x xs [F H] Hx IH]; cbn [map]; constructor; assumption. }
  unfold avg; rewrite len_map; change (IZR (len xs)) with n.
  assert (Dn : n * (uu * (2 * n * A)) / n = 2 * (n * uu) * A) by (field; lra).
  assert (QA : n * uu * A <= / 2097152 * A) by (apply Rmult_le_compat_r; lra).
  assert (As : Rabs (sumR (map B2R xs) / n) <= A).
  { unfold Rdiv; rewrite Rabs_mult, (Rabs_pos_eq (/ n)) by (apply Rlt_le, Rinv_0_lt_compat; lra).
    apply Rle_trans with (n * A * / n); [apply Rmult_le_compat_r; [apply Rlt_le, Rinv_0_lt_compat; lra|exact Bs]|apply Req_le; field; lra]. }
  apply (div_n_near _ _ _ _ (2 * A) _ S (conj N1 Hl)); [change (IZR (len xs)) with n; rewrite Dn; lra| |change (IZR (len xs)) with n; rewrite Dn; unfold mean_error; rewrite <- U; apply Req_le; ring].
  split; [lra|]; apply Rle_trans with (2 * n * A); [rewrite Rmult_assoc; lra|exact HiB].
Qed.

(** with deviations from any two numbers instead of the means, the sum of products changes by the product of the two offsets *)
Lemma sum_products p q xs : forall ys, length xs = length ys ->
  sumR (map2 (fun a b => (a - p) * (b - q)) xs ys) = sumR (map2 Rmult xs ys) - q * sumR xs - p * sumR ys + INR (length xs) * (p * q).
Proof.
  induction xs as [|x xs IH]; intros [|y ys] H; try discriminate H; [unfold sumR; cbn; ring|].
  rewrite (S_INR (length xs) : INR (length (x :: xs)) = _); cbn [map2]; change (sumR (?h :: ?t)) with (h + sumR t).
  repeat match goal with |- context [sumR (?h :: ?t)] => change (sumR (h :: t)) with (h + sumR t) end.
  rewrite IH by (cbn [length] in H; lia); ring.
Qed.
Lemma shifted_cov p q xs ys : xs <> [] -> length xs = length ys ->
  sumR (map2 (fun a b => (a - p) * (b - q)) xs ys) / IZR (len xs) = cov xs ys + (avg xs - p) * (avg ys - q).
Proof.
  intros Hne El; unfold cov; rewrite !sum_products by exact El; unfold avg; replace (len ys) with (len xs) by (unfold len; lia); rewrite INR_len.
  assert (IZR (len xs) <> 0) by (apply Rgt_not_eq, IZR_lt; destruct xs; [congruence|rewrite len_cons; pose proof (len_nonneg xs); lia]); field; assumption.
Qed.

Lemma product_near (P Q : R) (n : Z) x y p q : (1 <= n < 2 ^ 32)%Z -> 0 < P -> 0 < Q -> lo <= P -> lo <= Q -> lo * 4294967296 <= P * Q -> P * Q <= hi / 2 -> P <= hi -> Q <= hi ->
  is_finite x = true -> is_finite y = true -> is_finite p = true -> is_finite q = true -> Rabs (B2R x - B2R p) <= P -> Rabs (B2R y - B2R q) <= Q ->
  nearby (f64_div (f64_mul (f64_sub x p) (f64_sub y q)) (f64_of_Z n)) ((B2R x - B2R p) * (B2R y - B2R q) / IZR n) (7 * uu * (P * Q) / IZR n) /\
  Rabs ((B2R x - B2R p) * (B2R y - B2R q) / IZR n) <= P * Q / IZR n.
Proof.
  intros Hn PP PQ LP LQ LPQ HPQ HP HQ Fx Fy Fp Fq HX HY.
  assert (Pn : 1 <= IZR n) by (apply IZR_le; lia); assert (Un : IZR n < 4294967296) by (apply (IZR_lt n (2 ^ 32)); lia).
  assert (In : 0 < / IZR n) by (apply Rinv_0_lt_compat; lra).
  assert (U : 0 < uu <= / 1048576) by (unfold uu; lra).
  assert (UP : 0 < uu * P) by (apply Rmult_lt_0_compat; lra); assert (UQ : 0 < uu * Q) by (apply Rmult_lt_0_compat; lra).
  assert (PQ0 : 0 < P * Q) by (apply Rmult_lt_0_compat; lra).
  assert (UPQ : 0 < uu * (P * Q) <= / 1048576 * (P * Q)) by (split; [apply Rmult_lt_0_compat; lra|apply Rmult_le_compat_r; lra]).
  assert (UUPQ : 0 < uu * (uu * (P * Q)) <= / 1048576 * (uu * (P * Q))) by (split; [apply Rmult_lt_0_compat; lra|apply Rmult_le_compat_r; lra]).
  assert (DX : nearby (f64_sub x p) (B2R x - B2R p) (uu * P)) by (apply (sub_near _ _ _ _ 0 0 P); [apply nearby_self, Fx|apply nearby_self, Fp|lra|lra|lra]).
  assert (DY : nearby (f64_sub y q) (B2R y - B2R q) (uu * Q)) by (apply (sub_near _ _ _ _ 0 0 Q); [apply nearby_self, Fy|apply nearby_self, Fq|lra|lra|lra]).
  assert (lo0 : 0 < lo) by apply lo_pos.
  assert (M : nearby (f64_mul (f64_sub x p) (f64_sub y q)) ((B2R x - B2R p) * (B2R y - B2R q)) (5 * (uu * (P * Q)))).
  { apply (mul_near _ _ _ _ (uu * P) (uu * Q) P Q (2 * (P * Q))); [exact DX|exact DY|exact HX|exact HY| |lra|].
    - replace ((P + uu * P) * (Q + uu * Q)) with (P * Q + 2 * (uu * (P * Q)) + uu * (uu * (P * Q))) by ring; lra.
    - replace (uu * P * (Q + uu * Q) + P * (uu * Q) + uu * (2 * (P * Q))) with (4 * (uu * (P * Q)) + uu * (uu * (P * Q))) by ring; lra. }
  pose proof (prod_le _ _ _ _ HX HY) as HXY.
  assert (HD : Rabs ((B2R x - B2R p) * (B2R y - B2R q) / IZR n) <= P * Q / IZR n).
  { unfold Rdiv; rewrite Rabs_mult, (Rabs_pos_eq (/ IZR n)) by lra; apply Rmult_le_compat_r; lra. }
  split; [|exact HD].
  assert (D1 : 5 * (uu * (P * Q)) / IZR n <= 5 * / 1048576 * (P * Q / IZR n)).
  { replace (5 * / 1048576 * (P * Q / IZR n)) with (5 * (/ 1048576 * (P * Q)) / IZR n) by (unfold Rdiv; ring); unfold Rdiv; apply Rmult_le_compat_r; lra. }
  assert (D0 : 0 < P * Q / IZR n <= P * Q).
  { split; [apply Rmult_lt_0_compat; lra|]; unfold Rdiv; rewrite <- (Rmult_1_r (P * Q)) at 2; apply Rmult_le_compat_l; [lra|]; rewrite <- Rinv_1; apply Rinv_le_contravar; lra. }
  assert (D2 : lo <= P * Q / IZR n).
  { apply (Rmult_le_reg_r (IZR n)); [lra|]; unfold Rdiv; rewrite Rmult_assoc, Rinv_l, Rmult_1_r by lra; apply Rle_trans with (2 := LPQ); apply Rmult_le_compat_l; lra. }
  apply (div_n_near _ _ _ n (2 * (P * Q / IZR n)) _ M Hn); [lra|lra|].
  apply Req_le; unfold Rdiv; ring.
Qed.

Lemma avg_len (xs ys : list F64) : length xs = length ys -> len xs = len ys. Proof. unfold len; lia. Qed.
Theorem C161_accuracy :
  forall (L : Libm) (x y : Serie F64) xs ys A B P Q,
  repr x 1 (col xs) -> repr y 1 (col ys) -> xs <> [] -> length xs = length ys ->
  Forall (fun v => is_finite v = true) xs -> Forall (fun v => is_finite v = true) ys ->
  (forall v, In v xs -> Rabs (B2R v) <= A /\ Rabs (B2R v - avg (map B2R xs)) <= P) ->
  (forall v, In v ys -> Rabs (B2R v) <= B /\ Rabs (B2R v - avg (map B2R ys)) <= Q) ->
  moderate_size A -> moderate_size B -> moderate_size P -> moderate_size Q ->
  exists c, @covariance F64 (f64_num L) x y = Ok c /\ is_finite c = true /\
    let n := IZR (len xs) in let p := mean_error n A in let q := mean_error n B in
    Rabs (B2R c - cov (map B2R xs) (map B2R ys)) <= p * q + (2 * n + 7) * / 2 ^ 53 * ((P + p) * (Q + q)).
Proof.
  intros L x y xs ys A B P Q Hx Hy Hne El Fx Fy BX BY HA HB HP HQ.
  pose proof (avg_len xs ys El) as Lz.
  assert (Hl : (len xs < 2 ^ 32)%Z) by (pose proof (repr_bounds _ _ _ Hx) as (_ & H & _); rewrite len_col in H; exact H).
  assert (Hl1 : (1 <= len xs)%Z) by (destruct xs; [congruence|rewrite len_cons; pose proof (len_nonneg xs); lia]).
  assert (Nys : ys <> []) by (intros ->; destruct xs; [congruence|discriminate El]).
  exists (@cov_sum F64 (f64_num L) xs ys); split; [apply (covariance_steps x y xs ys Hx Hy Lz)|].
  assert (MX : nearby (f64_div (fold_left f64_add xs (f64_of_Z 0)) (f64_of_Z (len xs))) (avg (map B2R xs)) (mean_error (IZR (len xs)) A)).
  { apply mean_near; [exact Hne|exact Hl| |exact HA]; apply Forall_forall; intros v Hv; rewrite Forall_forall in Fx; split; [apply Fx, Hv|apply BX, Hv]. }
  assert (MY : nearby (f64_div (fold_left f64_add ys (f64_of_Z 0)) (f64_of_Z (len ys))) (avg (map B2R ys)) (mean_error (IZR (len xs)) B)).
  { rewrite Lz; apply mean_near; [exact Nys|exact (eq_ind _ (fun z => (z < 2 ^ 32)%Z) Hl _ Lz)| |exact HB]; apply Forall_forall; intros v Hv; rewrite Forall_forall in Fy; split; [apply Fy, Hv|apply BY, Hv]. }
  unfold cov_sum, deviations; cbn [n_add n_div n_mul n_sub n_of_Z f64_num].
  set (mx := f64_div (fold_left f64_add xs (f64_of_Z 0)) (f64_of_Z (len xs))) in *; set (my := f64_div (fold_left f64_add ys (f64_of_Z 0)) (f64_of_Z (len ys))) in *.
  set (n := IZR (len xs)) in *; set (p := mean_error n A) in *; set (q := mean_error n B) in *; cbv zeta.
  destruct (moderate_bounds A HA) as (PA & _ & LA & UA); destruct (moderate_bounds B HB) as (PB & _ & LB & UB);
    destruct (moderate_bounds P HP) as (PP & _ & LP & UP); destruct (moderate_bounds Q HQ) as (PQ & _ & LQ & UQ).
  assert (B1 : 1 <= n) by (apply IZR_le; lia); assert (B2 : n < 4294967296) by (apply (IZR_lt _ (2 ^ 32)); lia).
  assert (U : uu = / 2 ^ 53) by (unfold uu; lra); assert (Nu : n * uu <= / 2097152) by (unfold uu; lra); assert (Up : 0 < uu) by (unfold uu; lra).
  assert (S : forall a, 0 < a -> 0 <= mean_error n a <= a).
  { intros a Pa; unfold mean_error; rewrite <- U; split; [apply Rmult_le_pos; [apply Rmult_le_pos; lra|lra]|].
    rewrite <- (Rmult_1_l a) at 2; apply Rmult_le_compat_r; [lra|]; unfold uu in *; lra. }
  pose proof (S A PA) as Sp; pose proof (S B PB) as Sq; fold p in Sp; fold q in Sq.
  set (P1 := P + p) in *; set (Q1 := Q + q) in *.
  assert (lo0 : 0 < lo) by apply lo_pos.
  assert (BP : P1 <= bpow radix2 401) by (unfold P1; change (bpow radix2 401) with (bpow radix2 (1 + 400)); rewrite bpow_plus; change (bpow radix2 1) with 2; lra).
  assert (BQ : Q1 <= bpow radix2 401) by (unfold Q1; change (bpow radix2 401) with (bpow radix2 (1 + 400)); rewrite bpow_plus; change (bpow radix2 1) with 2; lra).
  assert (H4 : bpow radix2 401 <= hi) by (unfold hi; apply bpow_le; lia).
  assert (PQ1 : lo * 4294967296 <= P1 * Q1).
  { apply Rle_trans with (bpow radix2 (-400) * bpow radix2 (-400)); [change 4294967296 with (bpow radix2 32); unfold lo; rewrite <- !bpow_plus; apply bpow_le; lia|].
    pose proof (bpow_gt_0 radix2 (-400)); destruct HP, HQ; apply Rmult_le_compat; unfold P1, Q1; lra. }
  assert (PQ2 : P1 * Q1 <= hi / 4).
  { apply Rle_trans with (bpow radix2 401 * bpow radix2 401); [apply Rmult_le_compat; unfold P1, Q1 in *; lra|].
    replace (hi / 4) with (bpow radix2 998) by (unfold hi; replace 1000%Z with (998 + 2)%Z by lia; rewrite bpow_plus; change (bpow radix2 2) with 4; field); rewrite <- bpow_plus; apply bpow_le; lia. }
  assert (PQ0 : 0 < P1 * Q1) by lra.
  destruct MX as [Fmx Dx]; destruct MY as [Fmy Dy].
  assert (F2 : Forall2 (fun f r => nearby f r (7 * uu * (P1 * Q1) / n) /\ Rabs r <= P1 * Q1 / n)
    (map (fun v => f64_div v (f64_of_Z (len xs))) (map2 f64_mul (map (fun v => f64_sub v mx) xs) (map (fun v => f64_sub v my) ys)))
    (map (fun r => r / n) (map2 (fun a b => (a - B2R mx) * (b - B2R my)) (map B2R xs) (map B2R ys)))).
  { assert (GX : forall v, In v xs -> is_finite v = true /\ Rabs (B2R v - B2R mx) <= P1).
    { intros v Hv; rewrite Forall_forall in Fx; split; [apply Fx, Hv|]; destruct (BX v Hv) as [_ H]; apply abs_le in H, Dx; apply abs_le; unfold P1; lra. }
    assert (GY : forall v, In v ys -> is_finite v = true /\ Rabs (B2R v - B2R my) <= Q1).
    { intros v Hv; rewrite Forall_forall in Fy; split; [apply Fy, Hv|]; destruct (BY v Hv) as [_ H]; apply abs_le in H, Dy; apply abs_le; unfold Q1; lra. }
    assert (K : forall v w, is_finite v = true -> is_finite w = true -> Rabs (B2R v - B2R mx) <= P1 -> Rabs (B2R w - B2R my) <= Q1 ->
      nearby (f64_div (f64_mul (f64_sub v mx) (f64_sub w my)) (f64_of_Z (len xs))) ((B2R v - B2R mx) * (B2R w - B2R my) / n) (7 * uu * (P1 * Q1) / n) /\
      Rabs ((B2R v - B2R mx) * (B2R w - B2R my) / n) <= P1 * Q1 / n).
    { intros v w Fv Fw Hv Hw; apply product_near; try assumption; unfold P1, Q1 in *; try lra; split; assumption. }
    clearbody P1 Q1 p q mx my n; revert K; generalize (f64_of_Z (len xs)) as N; intros N K; clear - GX GY El K; revert ys El GY.
    induction xs as [|v xs IH]; intros [|w ys] El GY; try discriminate El; cbn [map map2]; constructor.
    - apply K; [apply GX|apply GY|apply GX|apply GY]; left; reflexivity.
    - apply IH; [intros; apply GX; right; assumption|cbn [length] in El; lia|intros; apply GY; right; assumption]. }
  assert (FL : forall l acc, fold_left (fun acc v => f64_add acc (f64_div v (f64_of_Z (len xs)))) l acc = fold_left f64_add (map (fun v => f64_div v (f64_of_Z (len xs))) l) acc).
  { clear; induction l as [|v l IH]; intros acc; [reflexivity|]; cbn [fold_left map]; apply IH. }
  rewrite FL.
  assert (In : 0 < / n) by (apply Rinv_0_lt_compat; lra).
  assert (Len : INR (length (map (fun v => f64_div v (f64_of_Z (len xs))) (map2 f64_mul (map (fun v => f64_sub v mx) xs) (map (fun v => f64_sub v my) ys)))) = n).
  { rewrite map_length; unfold n; rewrite <- INR_len; f_equal; generalize mx my; intros a b; clear - El; revert ys El; induction xs as [|v xs IH]; intros [|w ys] El; try discriminate El; cbn [map map2 length]; [reflexivity|]; f_equal; apply IH; cbn [length] in El; lia. }
  pose proof (sum_near (7 * uu * (P1 * Q1) / n) (P1 * Q1 / n) (2 * (P1 * Q1)) _ _
    ltac:(unfold Rdiv; apply Rmult_le_pos; [apply Rmult_le_pos; lra|lra]) ltac:(unfold Rdiv; apply Rmult_le_pos; lra) F2 ltac:(lra) (f64_of_Z 0) 0 0 zero_near) as N.
  rewrite Len, Rabs_R0 in N.
  assert (E1 : n * (7 * uu * (P1 * Q1) / n + uu * (2 * (P1 * Q1))) = (2 * n + 7) * uu * (P1 * Q1)) by (field; lra).
  assert (E2 : n * (P1 * Q1 / n + 7 * uu * (P1 * Q1) / n + uu * (2 * (P1 * Q1))) = P1 * Q1 + (2 * n + 7) * uu * (P1 * Q1)) by (field; lra).
  rewrite E1, E2, !Rplus_0_l in N.
  assert (E3 : (2 * n + 7) * uu * (P1 * Q1) <= P1 * Q1).
  { rewrite <- (Rmult_1_l (P1 * Q1)) at 2; apply Rmult_le_compat_r; [lra|]; unfold uu in *; lra. }
  specialize (N ltac:(lra)); destruct N as [Fc Nc]; split; [exact Fc|].
  assert (SD : forall l, sumR (map (fun r => r / n) l) = sumR l / n).
  { clear; induction l as [|r l IH]; [unfold sumR; cbn; unfold Rdiv; ring|]; cbn [map]; change (sumR (?h :: ?t)) with (h + sumR t).
    repeat match goal with |- context [sumR (?h :: ?t)] => change (sumR (h :: t)) with (h + sumR t) end; rewrite IH; unfold Rdiv; ring. }
  rewrite SD in Nc; pose proof (shifted_cov (B2R mx) (B2R my) (map B2R xs) (map B2R ys) ltac:(destruct xs; [congruence|discriminate]) ltac:(rewrite !map_length; exact El)) as Sh.
  rewrite len_map in Sh; change (IZR (len xs)) with n in Sh; rewrite Sh in Nc; rewrite <- U.
  set (k := cov _ _) in *; set (dx := avg (map B2R xs) - B2R mx) in *; set (dy := avg (map B2R ys) - B2R my) in *.
  assert (Dx' : Rabs dx <= p) by (unfold dx; rewrite Rabs_minus_sym; exact Dx); assert (Dy' : Rabs dy <= q) by (unfold dy; rewrite Rabs_minus_sym; exact Dy).
  pose proof (prod_le _ _ _ _ Dx' Dy') as Dxy.
  assert (Fin : forall c E F, Rabs (c - (k + dx * dy)) <= E -> Rabs (dx * dy) <= F -> Rabs (c - k) <= F + E) by (intros c E F J K; apply abs_le in J, K; apply abs_le; lra).
  apply (Fin _ _ _ Nc Dxy).
Qed.
Print Assumptions C161_accuracy.

(** [cov] is what the same program computes with exact numbers *)
Theorem C161_exact :
  forall (x y : Serie R) xs ys, repr x 1 (col xs) -> repr y 1 (col ys) -> xs <> [] -> len xs = len ys ->
  @covariance R r_num x y = Ok (cov xs ys).
Proof.
  intros x y xs ys Hx Hy Hne El; destruct (C69_covariance x y xs ys Hx Hy Hne El) as (c & _ & _ & E & _ & _ & _ & V & _); rewrite E, V; reflexivity.
Qed.
Print Assumptions C161_exact.

(** as long as the error of the means is below the deviations, the error is small against the product of the deviations, whatever the offset *)
Theorem C161_offset :
  forall (L : Libm) (x y : Serie F64) xs ys A B P Q,
  repr x 1 (col xs) -> repr y 1 (col ys) -> xs <> [] -> length xs = length ys ->
  Forall (fun v => is_finite v = true) xs -> Forall (fun v => is_finite v = true) ys ->
  (forall v, In v xs -> Rabs (B2R v) <= A /\ Rabs (B2R v - avg (map B2R xs)) <= P) ->
  (forall v, In v ys -> Rabs (B2R v) <= B /\ Rabs (B2R v - avg (map B2R ys)) <= Q) ->
  moderate_size A -> moderate_size B -> moderate_size P -> moderate_size Q ->
  mean_error (IZR (len xs)) A <= P -> mean_error (IZR (len xs)) B <= Q ->
  exists c, @covariance F64 (f64_num L) x y = Ok c /\ is_finite c = true /\
    Rabs (B2R c - cov (map B2R xs) (map B2R ys)) <= mean_error (IZR (len xs)) A * mean_error (IZR (len xs)) B + (8 * IZR (len xs) + 28) * / 2 ^ 53 * (P * Q).
Proof.
  intros L x y xs ys A B P Q Hx Hy Hne El Fx Fy BX BY HA HB HP HQ SA SB.
  destruct (C161_accuracy L x y xs ys A B P Q Hx Hy Hne El Fx Fy BX BY HA HB HP HQ) as (c & E & F & D); exists c; split; [exact E|split; [exact F|]].
  cbv zeta in D; apply Rle_trans with (1 := D); apply Rplus_le_compat_l.
  assert (Z : 0 <= IZR (len xs)) by (apply IZR_le, len_nonneg); generalize dependent (IZR (len xs)); intros n D SA SB Z.
  replace ((8 * n + 28) * / 2 ^ 53 * (P * Q)) with ((2 * n + 7) * / 2 ^ 53 * ((2 * P) * (2 * Q))) by ring.
  destruct (moderate_bounds A HA) as (PA & _); destruct (moderate_bounds B HB) as (PB & _).
  assert (M : forall a, 0 < a -> 0 <= mean_error n a) by (intros a Pa; unfold mean_error; apply Rmult_le_pos; [apply Rmult_le_pos; lra|lra]).
  pose proof (M A PA); pose proof (M B PB); destruct (moderate_bounds P HP) as (PP & _); destruct (moderate_bounds Q HQ) as (PQ & _).
  apply Rmult_le_compat_l; [apply Rmult_le_pos; lra|]; apply Rmult_le_compat; lra.
Qed.
Print Assumptions C161_offset.

Lemma moderate_Z z : (1 <= z < 2 ^ 100)%Z -> moderate_size (IZR z).
Proof.
  intros H; split; [apply Rle_trans with (bpow radix2 0); [apply bpow_le; lia|apply IZR_le; lia]|].
  apply Rle_trans with (bpow radix2 100); [change (bpow radix2 100) with (IZR (2 ^ 100)); apply IZR_le; lia|apply bpow_le; lia].
Qed.
(** 1, 2, 4 and 2, 4, 9, covariance 11/3 *)
Example C161_ex :
  forall L : Libm, let xs := map f64_of_Z [1; 2; 4]%Z in let ys := map f64_of_Z [2; 4; 9]%Z in
  exists c, @covariance F64 (f64_num L) (mk 1 (col xs) 3) (mk 1 (col ys) 3) = Ok c /\ is_finite c = true /\ Rabs (B2R c - 11 / 3) <= / 2 ^ 43.
Proof.
  intros L xs ys.
  destruct (f64_of_Z_correct 1 ltac:(lia)) as (E1 & F1 & _); destruct (f64_of_Z_correct 2 ltac:(lia)) as (E2 & F2 & _); destruct (f64_of_Z_correct 4 ltac:(lia)) as (E4 & F4 & _); destruct (f64_of_Z_correct 9 ltac:(lia)) as (E9 & F9 & _).
  assert (Mx : map B2R xs = [1; 2; 4]) by (unfold xs; cbn [map]; rewrite E1, E2, E4; reflexivity).
  assert (My : map B2R ys = [2; 4; 9]) by (unfold ys; cbn [map]; rewrite E2, E4, E9; reflexivity).
  destruct (C161_offset L (mk 1 (col xs) 3) (mk 1 (col ys) 3) xs ys 4 9 2 4) as (c & E & F & D).
  - apply repr_col_mk; vm_compute; reflexivity.
  - apply repr_col_mk; vm_compute; reflexivity.
  - discriminate.
  - reflexivity.
  - repeat constructor; assumption.
  - repeat constructor; assumption.
  - intros v Hv; rewrite Mx; unfold avg, sumR, len; cbn [fold_right length]; change (IZR (Z.of_nat 3)) with 3; cbn in Hv; destruct Hv as [<-|[<-|[<-|[]]]]; rewrite ?E1, ?E2, ?E4; split; apply abs_le; lra.
  - intros v Hv; rewrite My; unfold avg, sumR, len; cbn [fold_right length]; change (IZR (Z.of_nat 3)) with 3; cbn in Hv; destruct Hv as [<-|[<-|[<-|[]]]]; rewrite ?E2, ?E4, ?E9; split; apply abs_le; lra.
  - apply moderate_Z; lia.
  - apply moderate_Z; lia.
  - apply moderate_Z; lia.
  - apply moderate_Z; lia.
  - unfold mean_error; change (IZR (len xs)) with 3; lra.
  - unfold mean_error; change (IZR (len xs)) with 3; lra.
  - exists c; split; [exact E|split; [exact F|]]; rewrite Mx, My in D; change (IZR (len xs)) with 3 in D.
    replace (cov [1; 2; 4] [2; 4; 9]) with (11 / 3) in D by (unfold cov, avg, sumR, len; cbn [map2 fold_right length]; change (IZR (Z.of_nat 3)) with 3; field).
    apply Rle_trans with (1 := D); unfold mean_error; lra.
Qed.
