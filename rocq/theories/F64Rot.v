(** * binary64: one rotation of Jacobi's method. *)
From Coq Require Import Reals Lra Psatz.
From Flocq Require Import Core IEEE754.BinarySingleNaN.
From Verif Require Import Base Num F64 F64Facts F64Arith F64Round LinSpec JacobiSpec.
From Verif Require Import F64Error F64Angle.
Open Scope R_scope.

(** ** The sum of the squares of the entries *)
Definition fro2 (n : nat) (X : Mat) : R := upto n (fun i => upto n (fun j => X i j * X i j)).
Definition minus (X Y : Mat) : Mat := fun i j => X i j - Y i j.
Lemma upto_ge0 n f : (forall i, (i < n)%nat -> 0 <= f i) -> 0 <= upto n f.
Proof. intros H; induction n as [|n IH]; [unfold upto; cbn; lra|]; rewrite upto_S; pose proof (H n ltac:(lia)); assert (0 <= upto n f) by (apply IH; intros; apply H; lia); lra. Qed.
Lemma upto_ge1 n f i : (forall i, (i < n)%nat -> 0 <= f i) -> (i < n)%nat -> f i <= upto n f.
Proof.
  intros H; induction n as [|n IH]; [lia|]; intros Hi; rewrite upto_S.
  destruct (Nat.eq_dec i n) as [->|Hne].
  - pose proof (upto_ge0 n f ltac:(intros; apply H; lia)); lra.
  - pose proof (IH ltac:(intros; apply H; lia) ltac:(lia)); pose proof (H n ltac:(lia)); lra.
Qed.
Lemma upto_le n f e : (forall i, (i < n)%nat -> f i <= e) -> upto n f <= INR n * e.
Proof. intros H; induction n as [|n IH]; [unfold upto; cbn; lra|]; rewrite upto_S, S_INR; pose proof (H n ltac:(lia)); assert (upto n f <= INR n * e) by (apply IH; intros; apply H; lia); lra. Qed.
Lemma sq_ge0 x : 0 <= x * x.
Proof. apply Rle_0_sqr. Qed.
Lemma fro2_ge0 n X : 0 <= fro2 n X.
Proof. apply upto_ge0; intros; apply upto_ge0; intros; apply sq_ge0. Qed.
Lemma fro2_ext n X Y : mat_eq n X Y -> fro2 n X = fro2 n Y.
Proof. intros H; apply upto_ext; intros i Hi; apply upto_ext; intros j Hj; rewrite H by assumption; reflexivity. Qed.
Lemma fro2_t n X : fro2 n (mat_t X) = fro2 n X.
Proof. unfold fro2, mat_t; apply upto_swap. Qed.
Lemma fro2_turn n l m c s X : (l < n)%nat -> (m < n)%nat -> l <> m -> c * c + s * s = 1 -> fro2 n (turn l m c s X) = fro2 n X.
Proof.
  intros Hl Hm Hlm Hcs; rewrite <- fro2_t, <- (fro2_t n X); apply upto_ext; intros j Hj; unfold mat_t.
  rewrite (upto_split2 n _ l m), (upto_split2 n (fun k => X k j * X k j) l m) by assumption.
  unfold turn at 1 2 3 4; rewrite !Nat.eqb_refl; destruct (Nat.eqb_spec m l); [lia|].
  replace ((c * X l j - s * X m j) * (c * X l j - s * X m j) + (s * X l j + c * X m j) * (s * X l j + c * X m j)) with
    ((c * c + s * s) * (X l j * X l j + X m j * X m j)) by ring.
  rewrite Hcs, Rmult_1_l; f_equal; apply upto_ext; intros k Hk; unfold turn; destruct (Nat.eqb k l), (Nat.eqb k m); reflexivity.
Qed.
Lemma fro2_turned n l m c s X : (l < n)%nat -> (m < n)%nat -> l <> m -> c * c + s * s = 1 -> fro2 n (turned l m c s X) = fro2 n X.
Proof. intros; unfold turned; rewrite fro2_t, fro2_turn, fro2_t, fro2_turn by assumption; reflexivity. Qed.
Lemma turn_minus n l m c s X Y : (l < n)%nat -> (m < n)%nat -> mat_eq n (minus (turn l m c s X) (turn l m c s Y)) (turn l m c s (minus X Y)).
Proof. intros _ _ i j _ _; unfold minus, turn; destruct (Nat.eqb i l); [ring|]; destruct (Nat.eqb i m); ring. Qed.
Lemma turned_minus n l m c s X Y : mat_eq n (minus (turned l m c s X) (turned l m c s Y)) (turned l m c s (minus X Y)).
Proof.
  intros i j _ _; unfold minus, turned, mat_t, turn.
  destruct (Nat.eqb j l); [|destruct (Nat.eqb j m)]; (destruct (Nat.eqb i l); [|destruct (Nat.eqb i m)]); ring.
Qed.
Lemma fro2_entry n X i j a : fro2 n X <= a * a -> 0 <= a -> (i < n)%nat -> (j < n)%nat -> Rabs (X i j) <= a.
Proof.
  intros H Ha Hi Hj; apply Rsqr_le_abs_0_alt, Rsqr_incr_0_var || idtac.
  assert (S : X i j * X i j <= a * a).
  { apply Rle_trans with (2 := H); apply Rle_trans with (upto n (fun j => X i j * X i j)).
    - apply (upto_ge1 n (fun j => X i j * X i j) j); [intros; apply sq_ge0|exact Hj].
    - apply (upto_ge1 n (fun i => upto n (fun j => X i j * X i j)) i); [intros; apply upto_ge0; intros; apply sq_ge0|exact Hi]. }
  rewrite <- (Rabs_pos_eq a Ha); apply Rsqr_le_abs_0; exact S.
Qed.
Lemma fro2_bound n X e : 0 <= e -> (forall i j, (i < n)%nat -> (j < n)%nat -> Rabs (X i j) <= e) -> fro2 n X <= (INR n * e) * (INR n * e).
Proof.
  intros He H; replace (INR n * e * (INR n * e)) with (INR n * (INR n * (e * e))) by ring.
  apply upto_le; intros i Hi; apply upto_le; intros j Hj; specialize (H i j Hi Hj).
  assert (S : Rsqr (X i j) <= Rsqr e) by (apply Rsqr_le_abs_1; rewrite (Rabs_pos_eq e) by exact He; exact H); exact S.
Qed.
(** the triangle inequality *)
Definition ip (n : nat) (X Y : Mat) : R := upto n (fun i => upto n (fun j => X i j * Y i j)).
Lemma fro2_lin n a b X Y : fro2 n (fun i j => a * X i j + b * Y i j) = a * a * fro2 n X + 2 * a * b * ip n X Y + b * b * fro2 n Y.
Proof.
  unfold fro2, ip; rewrite <- upto_lin.
  transitivity (upto n (fun i => 1 * (a * a * upto n (fun j => X i j * X i j) + 2 * a * b * upto n (fun j => X i j * Y i j)) + b * b * upto n (fun j => Y i j * Y i j))).
  - apply upto_ext; intros i _; rewrite Rmult_1_l, <- upto_lin, <- (Rmult_1_l (upto n (fun j => a * a * (X i j * X i j) + 2 * a * b * (X i j * Y i j)))), <- upto_lin.
    apply upto_ext; intros j _; ring.
  - rewrite upto_lin; ring.
Qed.
Lemma fro2_add n X Y a b : 0 < a -> 0 < b -> fro2 n X <= a * a -> fro2 n Y <= b * b -> fro2 n (fun i j => X i j + Y i j) <= (a + b) * (a + b).
Proof.
  intros Ha Hb HX HY.
  assert (E : fro2 n (fun i j => X i j + Y i j) = fro2 n X + 2 * ip n X Y + fro2 n Y).
  { rewrite (fro2_ext n _ (fun i j => 1 * X i j + 1 * Y i j)) by (intros i j _ _; ring); rewrite fro2_lin; ring. }
  pose proof (fro2_ge0 n (fun i j => b * X i j + (- a) * Y i j)) as P; rewrite fro2_lin in P.
  assert (I : ip n X Y <= a * b).
  { assert (Q : a * b * ip n X Y <= a * b * (a * b)) by nra.
    apply (Rmult_le_reg_l (a * b)); [apply Rmult_lt_0_compat; assumption|exact Q]. }
  rewrite E; lra.
Qed.

(** ** One rotation applied to nearby matrices *)
Lemma turn_close n l m c s V V' Q a e : (l < n)%nat -> (m < n)%nat -> l <> m -> c * c + s * s = 1 -> 0 < a -> 0 < e -> (0 < n)%nat ->
  fro2 n (minus V Q) <= a * a -> (forall i j, (i < n)%nat -> (j < n)%nat -> Rabs (V' i j - turn l m c s V i j) <= e) ->
  fro2 n (minus V' (turn l m c s Q)) <= (a + INR n * e) * (a + INR n * e).
Proof.
  intros Hl Hm Hlm Hcs Ha He Hn HV HV'.
  rewrite (fro2_ext n _ (fun i j => minus (turn l m c s V) (turn l m c s Q) i j + (V' i j - turn l m c s V i j))) by (intros i j _ _; unfold minus; ring).
  apply fro2_add; [exact Ha|apply Rmult_lt_0_compat; [apply lt_0_INR; exact Hn|exact He]| |apply (fro2_bound n (fun i j => V' i j - turn l m c s V i j)); [lra|exact HV']].
  rewrite (fro2_ext n _ _ (turn_minus n l m c s V Q Hl Hm)), fro2_turn by assumption; exact HV.
Qed.
Lemma turned_close n l m c s V V' Q a e : (l < n)%nat -> (m < n)%nat -> l <> m -> c * c + s * s = 1 -> 0 < a -> 0 < e -> (0 < n)%nat ->
  fro2 n (minus V Q) <= a * a -> (forall i j, (i < n)%nat -> (j < n)%nat -> Rabs (V' i j - turned l m c s V i j) <= e) ->
  fro2 n (minus V' (turned l m c s Q)) <= (a + INR n * e) * (a + INR n * e).
Proof.
  intros Hl Hm Hlm Hcs Ha He Hn HV HV'.
  rewrite (fro2_ext n _ (fun i j => minus (turned l m c s V) (turned l m c s Q) i j + (V' i j - turned l m c s V i j))) by (intros i j _ _; unfold minus; ring).
  apply fro2_add; [exact Ha|apply Rmult_lt_0_compat; [apply lt_0_INR; exact Hn|exact He]| |apply (fro2_bound n (fun i j => V' i j - turned l m c s V i j)); [lra|exact HV']].
  rewrite (fro2_ext n _ _ (turned_minus n l m c s V Q)), fro2_turned by assumption; exact HV.
Qed.

(** ** The entries *)
Section Entries.
  Variables (c s : F64) (C S : R).
  Hypothesis Hc : nearby c C (2 * uu).
  Hypothesis Hs : nearby s S (2 * uu).
  Hypothesis AC : Rabs C <= 1.
  Hypothesis AS : Rabs S <= 1.
  Variable K : R.
  Hypothesis HK : 2 * lo <= K <= hi / 8.

  Let U : 0 < uu < / 1000000.
  Proof. unfold uu; lra. Qed.
  Let LP : 0 < lo := lo_pos.

  Lemma cv (v : F64) : is_finite v = true -> Rabs (B2R v) <= K -> nearby (f64_mul c v) (C * B2R v) (31 / 10 * uu * K).
  Proof. intros F H; apply (mul_near _ _ _ _ _ _ 1 K (11 / 10 * K) _ Hc (nearby_self v F) AC H); try split; try nra; unfold uu in *; lra. Qed.
  Lemma vc (v : F64) : is_finite v = true -> Rabs (B2R v) <= K -> nearby (f64_mul v c) (C * B2R v) (31 / 10 * uu * K).
  Proof. intros F H; rewrite Rmult_comm; apply (mul_near _ _ _ _ _ _ K 1 (11 / 10 * K) _ (nearby_self v F) Hc H AC); try split; try nra; unfold uu in *; lra. Qed.
End Entries.

Section Rotation.
  Variables (c s : F64) (C S : R).
  Hypothesis Hc : nearby c C (2 * uu).
  Hypothesis Hs : nearby s S (2 * uu).
  Hypothesis AC : Rabs C <= 1.
  Hypothesis AS : Rabs S <= 1.
  Variable K : R.
  Hypothesis HK : 2 * lo <= K <= hi / 8.
  Variables v w : F64.
  Hypothesis Fv : is_finite v = true.
  Hypothesis Fw : is_finite w = true.
  Hypothesis Hv : Rabs (B2R v) <= K.
  Hypothesis Hw : Rabs (B2R w) <= K.

  Let U : 0 < uu < / 1000000.
  Proof. unfold uu; lra. Qed.
  Let LP : 0 < lo := lo_pos.
  Let K0 : 0 < K.
  Proof. pose proof lo_pos; lra. Qed.

  Lemma two_products x y : Rabs x <= K -> Rabs y <= K -> Rabs (x - y) <= 2 * K /\ Rabs (x + y) <= 2 * K.
  Proof. intros H1 H2; apply abs_le in H1, H2; split; apply abs_le; lra. Qed.
  Lemma prod1 X x : Rabs X <= 1 -> Rabs x <= K -> Rabs (X * x) <= K.
  Proof. intros H1 H2; rewrite <- (Rmult_1_l K); apply prod_le; assumption. Qed.

  Lemma row_minus : nearby (f64_sub (f64_mul c v) (f64_mul s w)) (C * B2R v - S * B2R w) (9 * uu * K).
  Proof.
    destruct (two_products _ _ (prod1 _ _ AC Hv) (prod1 _ _ AS Hw)) as [A _].
    apply (sub_near _ _ _ _ _ _ (21 / 10 * K) _ (cv c C Hc AC K HK v Fv Hv) (cv s S Hs AS K HK w Fw Hw)); try split; try nra; unfold uu in *; lra.
  Qed.
  Lemma row_plus : nearby (f64_add (f64_mul s v) (f64_mul c w)) (S * B2R v + C * B2R w) (9 * uu * K).
  Proof.
    destruct (two_products _ _ (prod1 _ _ AS Hv) (prod1 _ _ AC Hw)) as [_ A].
    apply (add_near _ _ _ _ _ _ (21 / 10 * K) _ (cv s S Hs AS K HK v Fv Hv) (cv c C Hc AC K HK w Fw Hw)); try split; try nra; unfold uu in *; lra.
  Qed.
  Lemma off_minus : nearby (f64_sub (f64_mul v c) (f64_mul w s)) (C * B2R v - S * B2R w) (9 * uu * K).
  Proof.
    destruct (two_products _ _ (prod1 _ _ AC Hv) (prod1 _ _ AS Hw)) as [A _].
    apply (sub_near _ _ _ _ _ _ (21 / 10 * K) _ (vc c C Hc AC K HK v Fv Hv) (vc s S Hs AS K HK w Fw Hw)); try split; try nra; unfold uu in *; lra.
  Qed.
  Lemma off_plus : nearby (f64_add (f64_mul v s) (f64_mul w c)) (S * B2R v + C * B2R w) (9 * uu * K).
  Proof.
    destruct (two_products _ _ (prod1 _ _ AS Hv) (prod1 _ _ AC Hw)) as [_ A].
    apply (add_near _ _ _ _ _ _ (21 / 10 * K) _ (vc s S Hs AS K HK v Fv Hv) (vc c C Hc AC K HK w Fw Hw)); try split; try nra; unfold uu in *; lra.
  Qed.

  (** the diagonal *)
  Variable b : F64.
  Hypothesis Fb : is_finite b = true.
  Hypothesis Hb : Rabs (B2R b) <= K.
  Lemma unit_product (x y : F64) X Y : nearby x X (2 * uu) -> nearby y Y (2 * uu) -> Rabs X <= 1 -> Rabs Y <= 1 -> nearby (f64_mul x y) (X * Y) (6 * uu) /\ Rabs (X * Y) <= 1.
  Proof.
    intros Hx Hy AX AY; pose proof lo_hi as (_ & L1 & L2); split; [|rewrite <- (Rmult_1_l 1); apply prod_le; assumption].
    assert (2 <= hi) by (change 2 with (bpow radix2 1); apply bpow_le; lia).
    apply (mul_near _ _ _ _ _ _ 1 1 (11 / 10) _ Hx Hy AX AY); try split; try nra; unfold uu in *; lra.
  Qed.
  Lemma scaled (x : F64) X y : nearby x X (6 * uu) -> Rabs X <= 1 -> is_finite y = true -> Rabs (B2R y) <= K -> nearby (f64_mul y x) (B2R y * X) (72 / 10 * uu * K) /\ Rabs (B2R y * X) <= K.
  Proof.
    intros Hx AX Fy Hy; split; [|rewrite Rmult_comm; apply prod1; assumption].
    apply (mul_near _ _ _ _ _ _ K 1 (11 / 10 * K) _ (nearby_self y Fy) Hx Hy AX); try split; try nra; unfold uu in *; lra.
  Qed.
  Let SC : F64 := f64_mul s c.
  Lemma twice_mixed : nearby (f64_add (f64_mul b SC) (f64_mul b SC)) (2 * (S * C * B2R b)) (17 * uu * K).
  Proof.
    destruct (unit_product s c S C Hs Hc AS AC) as [N A]; destruct (scaled _ _ b N A Fb Hb) as [N1 A1].
    replace (2 * (S * C * B2R b)) with (B2R b * (S * C) + B2R b * (S * C)) by ring.
    destruct (two_products _ _ A1 A1) as [_ A2].
    apply (add_near _ _ _ _ _ _ (21 / 10 * K) _ N1 N1); try split; try nra; unfold uu in *; lra.
  Qed.
  Lemma diag_minus : nearby (f64_sub (f64_add (f64_mul v (f64_mul c c)) (f64_mul w (f64_mul s s))) (f64_add (f64_mul b SC) (f64_mul b SC)))
    (C * C * B2R v + S * S * B2R w - 2 * (S * C * B2R b)) (40 * uu * K).
  Proof.
    destruct (unit_product c c C C Hc Hc AC AC) as [Nc Ac]; destruct (unit_product s s S S Hs Hs AS AS) as [Ns As]; destruct (unit_product s c S C Hs Hc AS AC) as [_ Am].
    destruct (scaled _ _ v Nc Ac Fv Hv) as [N1 A1]; destruct (scaled _ _ w Ns As Fw Hw) as [N2 A2].
    destruct (two_products _ _ A1 A2) as [_ A3].
    assert (N3 : nearby (f64_add (f64_mul v (f64_mul c c)) (f64_mul w (f64_mul s s))) (B2R v * (C * C) + B2R w * (S * S)) (17 * uu * K))
      by (apply (add_near _ _ _ _ _ _ (21 / 10 * K) _ N1 N2); try split; try nra; unfold uu in *; lra).
    replace (C * C * B2R v + S * S * B2R w - 2 * (S * C * B2R b)) with ((B2R v * (C * C) + B2R w * (S * S)) - 2 * (S * C * B2R b)) by ring.
    pose proof (prod1 _ _ Am Hb) as A4.
    apply (sub_near _ _ _ _ _ _ (41 / 10 * K) _ N3 twice_mixed); try split; try (unfold uu in *; lra).
    assert (Rabs (B2R v * (C * C) + B2R w * (S * S) - 2 * (S * C * B2R b)) <= 4 * K) by (apply abs_le in A3, A4; apply abs_le; lra); unfold uu in *; lra.
  Qed.
  Lemma diag_plus : nearby (f64_add (f64_add (f64_mul v (f64_mul s s)) (f64_mul w (f64_mul c c))) (f64_add (f64_mul b SC) (f64_mul b SC)))
    (S * S * B2R v + C * C * B2R w + 2 * (S * C * B2R b)) (40 * uu * K).
  Proof.
    destruct (unit_product c c C C Hc Hc AC AC) as [Nc Ac]; destruct (unit_product s s S S Hs Hs AS AS) as [Ns As]; destruct (unit_product s c S C Hs Hc AS AC) as [_ Am].
    destruct (scaled _ _ v Ns As Fv Hv) as [N1 A1]; destruct (scaled _ _ w Nc Ac Fw Hw) as [N2 A2].
    destruct (two_products _ _ A1 A2) as [_ A3].
    assert (N3 : nearby (f64_add (f64_mul v (f64_mul s s)) (f64_mul w (f64_mul c c))) (B2R v * (S * S) + B2R w * (C * C)) (17 * uu * K))
      by (apply (add_near _ _ _ _ _ _ (21 / 10 * K) _ N1 N2); try split; try nra; unfold uu in *; lra).
    replace (S * S * B2R v + C * C * B2R w + 2 * (S * C * B2R b)) with ((B2R v * (S * S) + B2R w * (C * C)) + 2 * (S * C * B2R b)) by ring.
    pose proof (prod1 _ _ Am Hb) as A4.
    apply (add_near _ _ _ _ _ _ (41 / 10 * K) _ N3 twice_mixed); try split; try (unfold uu in *; lra).
    assert (Rabs (B2R v * (S * S) + B2R w * (C * C) + 2 * (S * C * B2R b)) <= 4 * K) by (apply abs_le in A3, A4; apply abs_le; lra); unfold uu in *; lra.
  Qed.
End Rotation.
