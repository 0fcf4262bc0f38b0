(** * Plane rotations of a symmetric matrix, over the reals.

    [B] is the matrix of the quadratic form [A] in the basis [V] (rows are the basis vectors). *)
From Verif Require Import Base Spec LinSpec.
From Coq Require Import Reals Lra.
Open Scope R_scope.

(** rows [l] and [m] of [V] turned in their plane *)
Definition turn (l m : nat) (c s : R) (V : Mat) : Mat := fun k i =>
  if Nat.eqb k l then c * V l i - s * V m i else if Nat.eqb k m then s * V l i + c * V m i else V k i.
(** the form in the turned basis *)
Definition turned (l m : nat) (c s : R) (B : Mat) : Mat := mat_t (turn l m c s (mat_t (turn l m c s B))).

Lemma upto_ext n f g : (forall i, (i < n)%nat -> f i = g i) -> upto n f = upto n g.
Proof. intros H; unfold upto; f_equal; apply map_ext_in; intros i Hi; apply in_seq in Hi; apply H; lia. Qed.
Lemma upto_S n f : upto (S n) f = upto n f + f n.
Proof.
  unfold upto; rewrite seq_S, map_app; cbn [map Nat.add]; generalize (map f (seq 0 n)) as l; intros l; unfold total.
  induction l as [|x l IH]; cbn [app fold_right]; [lra|rewrite IH; lra].
Qed.
Lemma upto_lin n a b f g : upto n (fun i => a * f i + b * g i) = a * upto n f + b * upto n g.
Proof. induction n as [|n IH]; [unfold upto; cbn; ring|]; rewrite !upto_S, IH; ring. Qed.
Lemma upto_plus n f g : upto n (fun i => f i + g i) = upto n f + upto n g.
Proof. induction n as [|n IH]; [unfold upto; cbn; ring|]; rewrite !upto_S, IH; ring. Qed.
Lemma upto_scal n a f : upto n (fun i => a * f i) = a * upto n f.
Proof. induction n as [|n IH]; [unfold upto; cbn; ring|]; rewrite !upto_S, IH; ring. Qed.
Lemma upto_scal_r n a f : upto n (fun i => f i * a) = upto n f * a.
Proof. induction n as [|n IH]; [unfold upto; cbn; ring|]; rewrite !upto_S, IH; ring. Qed.
Lemma upto_swap n m f : upto n (fun i => upto m (fun j => f i j)) = upto m (fun j => upto n (fun i => f i j)).
Proof.
  induction n as [|n IH]; [unfold upto at 1; cbn; induction m as [|m IHm]; [reflexivity|rewrite upto_S, <- IHm; unfold upto; cbn; ring]|].
  rewrite upto_S, IH, <- upto_plus; apply upto_ext; intros; rewrite upto_S; reflexivity.
Qed.
Lemma upto_delta n i f : (i < n)%nat -> upto n (fun k => f k * mat_id k i) = f i.
Proof.
  intros Hi; induction n as [|n IH]; [lia|]; rewrite upto_S; unfold mat_id in *; destruct (Nat.eqb_spec n i) as [->|Hne].
  - rewrite (upto_ext i _ (fun _ => 0 * 0)); [rewrite upto_scal; ring|]; intros k Hk; destruct (Nat.eqb_spec k i); [lia|ring].
  - rewrite IH by lia; ring.
Qed.
Lemma upto_0 n : upto n (fun _ => 0) = 0.
Proof. induction n as [|n IH]; [reflexivity|]; rewrite upto_S, IH; ring. Qed.

Section Form.
  Variable n : nat.
  (** [u] and [v] are rows: u A v^T *)
  Definition form (A : Mat) (u v : nat -> R) : R := upto n (fun i => upto n (fun j => u i * A i j * v j)).
  Lemma form_ext A u u' v v' : (forall i, (i < n)%nat -> u i = u' i) -> (forall i, (i < n)%nat -> v i = v' i) -> form A u v = form A u' v'.
  Proof. intros Hu Hv; unfold form; apply upto_ext; intros i Hi; apply upto_ext; intros j Hj; rewrite Hu, Hv by assumption; reflexivity. Qed.
  Lemma form_lin_l A a b u u' v : form A (fun i => a * u i + b * u' i) v = a * form A u v + b * form A u' v.
  Proof.
    unfold form; rewrite <- upto_lin; apply upto_ext; intros i Hi; rewrite <- upto_lin; apply upto_ext; intros j Hj; ring.
  Qed.
  Lemma form_lin_r A a b u v v' : form A u (fun i => a * v i + b * v' i) = a * form A u v + b * form A u v'.
  Proof.
    unfold form; rewrite <- upto_lin; apply upto_ext; intros i Hi; rewrite <- upto_lin; apply upto_ext; intros j Hj; ring.
  Qed.

  (** [B] is [A] in the basis [V] *)
  Definition in_basis (A V B : Mat) : Prop := forall i j, (i < n)%nat -> (j < n)%nat -> B i j = form A (V i) (V j).
  Definition orthonormal_rows (V : Mat) : Prop := mat_eq n (mat_mul n V (mat_t V)) mat_id.
  Definition orthonormal_cols (V : Mat) : Prop := mat_eq n (mat_mul n (mat_t V) V) mat_id.

  Lemma turn_form_l A V l m c s u k : (l < n)%nat -> (m < n)%nat -> form A (turn l m c s V k) u =
    turn l m c s (fun i _ => form A (V i) u) k O.
  Proof.
    intros Hl Hm; unfold turn; destruct (Nat.eqb k l); [|destruct (Nat.eqb k m); [|reflexivity]].
    - transitivity (form A (fun i => c * V l i + (- s) * V m i) u); [apply form_ext; intros; [ring|reflexivity]|rewrite form_lin_l; ring].
    - rewrite form_lin_l; ring.
  Qed.
  Lemma turn_form_r A V l m c s u k : (l < n)%nat -> (m < n)%nat -> form A u (turn l m c s V k) =
    turn l m c s (fun i _ => form A u (V i)) k O.
  Proof.
    intros Hl Hm; unfold turn; destruct (Nat.eqb k l); [|destruct (Nat.eqb k m); [|reflexivity]].
    - transitivity (form A u (fun i => c * V l i + (- s) * V m i)); [apply form_ext; intros; [reflexivity|ring]|rewrite form_lin_r; ring].
    - rewrite form_lin_r; ring.
  Qed.
  Lemma turn_ext l m c s (U W : Mat) k i i' : U l i = W l i' -> U m i = W m i' -> U k i = W k i' -> turn l m c s U k i = turn l m c s W k i'.
  Proof. intros E1 E2 E3; unfold turn; rewrite E1, E2, E3; reflexivity. Qed.
  Lemma turned_in_basis A V B l m c s : (l < n)%nat -> (m < n)%nat -> in_basis A V B -> in_basis A (turn l m c s V) (turned l m c s B).
  Proof.
    intros Hl Hm H i j Hi Hj; rewrite turn_form_r by assumption.
    assert (F : forall b, (b < n)%nat -> turn l m c s B i b = form A (turn l m c s V i) (V b)).
    { intros b Hb; rewrite turn_form_l by assumption; apply turn_ext; apply H; assumption. }
    unfold turned, mat_t; apply turn_ext; apply F; assumption.
  Qed.

  Lemma turn_rows V l m c s : (l < n)%nat -> (m < n)%nat -> l <> m -> c * c + s * s = 1 -> orthonormal_rows V -> orthonormal_rows (turn l m c s V).
  Proof.
    intros Hl Hm Hlm Hcs H.
    assert (G : forall U i j, (i < n)%nat -> (j < n)%nat -> mat_mul n U (mat_t U) i j = form mat_id (U i) (U j)).
    { intros U i j Hi Hj; unfold mat_mul, mat_t, form; apply upto_ext; intros k Hk.
      rewrite (upto_ext n _ (fun q => (U i k * U j q) * mat_id q k)).
      - rewrite (upto_delta n k (fun q => U i k * U j q) Hk); reflexivity.
      - intros q Hq; unfold mat_id; rewrite (Nat.eqb_sym q k); ring. }
    assert (B : in_basis mat_id V mat_id).
    { intros i j Hi Hj; rewrite <- G by assumption; symmetry; apply H; assumption. }
    intros i j Hi Hj; rewrite G by assumption; rewrite <- (turned_in_basis mat_id V mat_id l m c s Hl Hm B) by assumption.
    unfold turned, mat_t, turn, mat_id.
    repeat match goal with |- context [Nat.eqb ?a ?b] => destruct (Nat.eqb_spec a b); try lia; subst end; try congruence; try lra; try ring.
  Qed.
  Lemma upto_split2 (f : nat -> R) l m : (l < n)%nat -> (m < n)%nat -> l <> m ->
    upto n f = f l + f m + upto n (fun k => if Nat.eqb k l then 0 else if Nat.eqb k m then 0 else f k).
  Proof.
    intros Hl Hm Hlm.
    transitivity (upto n (fun k => f k * mat_id k l) + upto n (fun k => f k * mat_id k m) + upto n (fun k => if Nat.eqb k l then 0 else if Nat.eqb k m then 0 else f k)).
    - rewrite <- !upto_plus; apply upto_ext; intros k Hk; unfold mat_id; destruct (Nat.eqb_spec k l), (Nat.eqb_spec k m); subst; try lia; ring.
    - rewrite !upto_delta by assumption; reflexivity.
  Qed.
  Lemma turn_cols V l m c s : (l < n)%nat -> (m < n)%nat -> l <> m -> c * c + s * s = 1 -> orthonormal_cols V -> orthonormal_cols (turn l m c s V).
  Proof.
    intros Hl Hm Hlm Hcs H i j Hi Hj; specialize (H i j Hi Hj); rewrite <- H; unfold mat_mul, mat_t.
    rewrite (upto_split2 _ l m), (upto_split2 (fun k => V k i * V k j) l m) by assumption.
    unfold turn at 1 2 3 4; rewrite !Nat.eqb_refl; destruct (Nat.eqb_spec m l); [lia|].
    replace ((c * V l i - s * V m i) * (c * V l j - s * V m j) + (s * V l i + c * V m i) * (s * V l j + c * V m j)) with
      ((c * c + s * s) * (V l i * V l j + V m i * V m j)) by ring.
    rewrite Hcs, Rmult_1_l; f_equal; apply upto_ext; intros k Hk; unfold turn; destruct (Nat.eqb k l), (Nat.eqb k m); reflexivity.
  Qed.
End Form.
