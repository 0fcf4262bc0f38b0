(** * C160: which results depend on the choice of the axes (exact reals).

    The axes are changed by an orthogonal matrix Q, a rotation or a reflection.  Vectors v become Q v and tensors S become
    Q S Q^T, by the map of the library. *)
From Verif Require Import Base Num Serie Spec BaseFacts SerieFacts Functional FunctionalFacts Mathf MathFacts MinMaxFacts StatsFacts Stats Algebra AlgebraFacts Geo Eigen ViewFacts.
From Verif Require Import RNum LinSpec Props_Functional Props_MultDiv Props_Mean Props_MinMax Props_Algebra Props_Det Props_Geo Props_MeshTransform Props_Laws Props_VecLaws.
From Verif Require Import Props_Eigen JacobiFacts JacobiSpec EigenExact Props_EigenValues Props_InvEigen.
From Flocq Require Import Core.Raux.
From Coq Require Import Reals Lra Setoid Morphisms.
Open Scope R_scope.
#[local] Existing Instance r_num.

Definition orthogonal (Q : Mat) : Prop := mat_eq 3 (mat_mul 3 Q (mat_t Q)) mat_id.
Definition conj (Q A : Mat) : Mat := mat_mul 3 Q (mat_mul 3 A (mat_t Q)).
Definition turn (Q : Mat) (v : list R) : list R := mat_vec 3 Q v.
(** the symmetric tensor stored as six numbers, the full one stored as nine *)
Definition turn6 (Q : Mat) (v : list R) : list R := map (fun p => conj Q (sym3 v) (fst p) (snd p)) [(0, 0); (0, 1); (0, 2); (1, 1); (1, 2); (2, 2)]%nat.
Definition turn9 (Q : Mat) (v : list R) : list R :=
  map (fun p => conj Q (full 3 v) (fst p) (snd p)) [(0, 0); (0, 1); (0, 2); (1, 0); (1, 1); (1, 2); (2, 0); (2, 1); (2, 2)]%nat.

(** ** 3x3 matrices up to their nine entries *)
#[local] Instance mat_equiv : Equivalence (mat_eq 3).
Proof. split; [intros A i j _ _; reflexivity|intros A B H i j Hi Hj; symmetry; apply H; assumption|intros A B C H1 H2 i j Hi Hj; rewrite H1, H2 by assumption; reflexivity]. Qed.
#[local] Instance mul_proper : Proper (mat_eq 3 ==> mat_eq 3 ==> mat_eq 3) (mat_mul 3).
Proof. intros A A' HA B B' HB i j Hi Hj; unfold mat_mul; rewrite !sum3, !HA, !HB by lia; reflexivity. Qed.
#[local] Instance t_proper : Proper (mat_eq 3 ==> mat_eq 3) mat_t.
Proof. intros A A' HA i j Hi Hj; unfold mat_t; apply HA; assumption. Qed.
Lemma mulA A B C : mat_eq 3 (mat_mul 3 (mat_mul 3 A B) C) (mat_mul 3 A (mat_mul 3 B C)).
Proof. intros i j _ _; unfold mat_mul; rewrite !sum3; ring. Qed.
Lemma entry (P : nat -> Prop) : P 0%nat -> P 1%nat -> P 2%nat -> forall i, (i < 3)%nat -> P i.
Proof. intros; destruct i as [|[|[|i]]]; try assumption; lia. Qed.
Lemma entries (A B : Mat) : (forall j, (j < 3)%nat -> A 0%nat j = B 0%nat j) -> (forall j, (j < 3)%nat -> A 1%nat j = B 1%nat j) ->
  (forall j, (j < 3)%nat -> A 2%nat j = B 2%nat j) -> mat_eq 3 A B.
Proof. intros H0 H1 H2 i j Hi; revert i Hi j; apply (entry (fun i => forall j, (j < 3)%nat -> A i j = B i j)); assumption. Qed.
Lemma mul_1_l A : mat_eq 3 (mat_mul 3 mat_id A) A.
Proof. intros i j Hi Hj; revert i Hi; apply entry; unfold mat_mul, mat_id; rewrite sum3; cbn [Nat.eqb]; ring. Qed.
Lemma mul_1_r A : mat_eq 3 (mat_mul 3 A mat_id) A.
Proof. intros i j Hi Hj; revert j Hj; apply entry; unfold mat_mul, mat_id; rewrite sum3; cbn [Nat.eqb]; ring. Qed.
Lemma orthogonal_t Q : orthogonal Q -> mat_eq 3 (mat_mul 3 (mat_t Q) Q) mat_id.
Proof. exact (rows_cols 3 Q). Qed.
Lemma conj_mul Q A B : orthogonal Q -> mat_eq 3 (mat_mul 3 (conj Q A) (conj Q B)) (conj Q (mat_mul 3 A B)).
Proof.
  intros O; unfold conj; rewrite !mulA, <- (mulA (mat_t Q) Q), (orthogonal_t Q O), mul_1_l; reflexivity.
Qed.
#[local] Instance conj_proper Q : Proper (mat_eq 3 ==> mat_eq 3) (conj Q).
Proof. intros A B H; unfold conj; rewrite H; reflexivity. Qed.
Lemma conj_1 Q : orthogonal Q -> mat_eq 3 (conj Q mat_id) mat_id.
Proof. intros O; unfold conj; rewrite mul_1_l; exact O. Qed.
Lemma inverse_unique A X Y : mat_eq 3 (mat_mul 3 X A) mat_id -> mat_eq 3 (mat_mul 3 A Y) mat_id -> mat_eq 3 X Y.
Proof. intros HX HY; rewrite <- (mul_1_r X), <- HY, <- mulA, HX, mul_1_l; reflexivity. Qed.
Lemma det_mul A B : determinant 3 (mat_mul 3 A B) = determinant 3 A * determinant 3 B.
Proof. unfold determinant, upto, minor, LinSpec.total, mat_mul, upto, LinSpec.total; cbn [seq map fold_right pow Nat.ltb Nat.leb]; ring. Qed.
#[local] Instance det_proper : Proper (mat_eq 3 ==> eq) (determinant 3).
Proof. intros A B H; unfold determinant, upto, minor, LinSpec.total; cbn [seq map fold_right pow Nat.ltb Nat.leb]; rewrite !(H 0%nat), !(H 1%nat), !(H 2%nat) by lia; reflexivity. Qed.
Lemma det_t A : determinant 3 (mat_t A) = determinant 3 A.
Proof. unfold determinant, upto, minor, LinSpec.total, mat_t; cbn [seq map fold_right pow Nat.ltb Nat.leb]; ring. Qed.
Lemma det_conj Q A : orthogonal Q -> determinant 3 (conj Q A) = determinant 3 A.
Proof. intros O; unfold conj; rewrite !det_mul, det_t; pose proof (det_orthogonal Q O) as D; transitivity (determinant 3 A * (determinant 3 Q * determinant 3 Q)); [ring|rewrite D; ring]. Qed.

Lemma turn_len Q v : len (turn Q v) = 3%Z. Proof. reflexivity. Qed.
Lemma turn6_len Q v : len (turn6 Q v) = 6%Z. Proof. reflexivity. Qed.
Lemma turn9_len Q v : len (turn9 Q v) = 9%Z. Proof. reflexivity. Qed.
Lemma turn6_sym Q v : mat_eq 3 (sym3 (turn6 Q v)) (conj Q (sym3 v)).
Proof.
  assert (S : forall i j, (i < 3)%nat -> (j < 3)%nat -> conj Q (sym3 v) j i = conj Q (sym3 v) i j).
  { intros i j _ _; unfold conj, mat_mul, mat_t; rewrite !sum3; unfold sym3; cbn [Nat.mul Nat.add nth]; ring. }
  apply entries; apply entry; first [reflexivity|apply S; lia].
Qed.
Lemma turn9_full Q v : mat_eq 3 (full 3 (turn9 Q v)) (conj Q (full 3 v)).
Proof. apply entries; apply entry; reflexivity. Qed.
Lemma six_eq v w : len v = 6%Z -> len w = 6%Z -> mat_eq 3 (sym3 v) (sym3 w) -> v = w.
Proof.
  intros Lv Lw H; destruct (len6 v Lv) as (? & ? & ? & ? & ? & ? & ->); destruct (len6 w Lw) as (? & ? & ? & ? & ? & ? & ->).
  assert (E := H 0%nat 0%nat ltac:(lia) ltac:(lia)); assert (E1 := H 0%nat 1%nat ltac:(lia) ltac:(lia)); assert (E2 := H 0%nat 2%nat ltac:(lia) ltac:(lia)).
  assert (E3 := H 1%nat 1%nat ltac:(lia) ltac:(lia)); assert (E4 := H 1%nat 2%nat ltac:(lia) ltac:(lia)); assert (E5 := H 2%nat 2%nat ltac:(lia) ltac:(lia)).
  unfold sym3 in *; cbn [Nat.mul Nat.add nth] in *; congruence.
Qed.
Lemma turned_repr (s : Serie R) k rows f : repr s k rows -> rows <> [] -> (1 <= k)%Z -> (forall r, len (f r) = k) ->
  mapV f s = Ok (mk k (map f rows) 3) /\ repr (mk k (map f rows) 3) k (map f rows).
Proof.
  intros Hs Hne Hk Hf; destruct (repr_bounds _ _ _ Hs) as [B _]; pose proof (len_nonneg rows).
  assert (Rr : rows_of_size k (map f rows)) by (apply Forall_forall; intros r Hr; apply in_map_iff in Hr; destruct Hr as (q & <- & _); apply Hf).
  split; [apply (mapV_ok s k rows f k Hs Hne ltac:(lia) Rr)|].
  unfold repr in Hs; apply repr_mk; rewrite ?len_map; try tauto; lia.
Qed.

Lemma inner_turn Q u v : orthogonal Q -> len u = 3%Z -> len v = 3%Z -> inner (turn Q u) (turn Q v) = inner u v.
Proof.
  intros O Lu Lv; apply orthogonal_t in O.
  destruct (len3 u Lu) as (u0 & u1 & u2 & ->); destruct (len3 v Lv) as (v0 & v1 & v2 & ->).
  transitivity (upto 3 (fun i => upto 3 (fun j => mat_mul 3 (mat_t Q) Q i j * (nth i [u0; u1; u2] 0 * nth j [v0; v1; v2] 0)))).
  - unfold turn, mat_vec, inner, LinSpec.total; cbn [map seq map2 fold_right]; unfold mat_mul, mat_t; rewrite !sum3; cbn [nth]; ring.
  - rewrite !sum3, !O by lia; unfold mat_id; cbn [Nat.eqb nth]; unfold inner, LinSpec.total; cbn [map2 fold_right]; ring.
Qed.
Lemma cross_turn Q u v : orthogonal Q -> len u = 3%Z -> len v = 3%Z ->
  crossp (turn Q u) (turn Q v) = map (Rmult (determinant 3 Q)) (turn Q (crossp u v)).
Proof.
  intros O Lu Lv; unfold turn; rewrite <- mat_vec_scal by (apply size_cross; assumption).
  assert (E : mat_vec 3 (mat_t Q) (crossp (mat_vec 3 Q u) (mat_vec 3 Q v)) = map (Rmult (determinant 3 Q)) (crossp u v)).
  { destruct (len3 u Lu) as (u0 & u1 & u2 & ->); destruct (len3 v Lv) as (v0 & v1 & v2 & ->).
    unfold mat_vec, upto, LinSpec.total, crossp; cbn [seq map fold_right nth n_sub n_mul r_num].
    unfold determinant, upto, minor, LinSpec.total, mat_t; cbn [seq map fold_right pow Nat.ltb Nat.leb]; apply list3; ring. }
  rewrite <- E, mat_vec_mul, (mat_vec_ext _ _ _ O), mat_vec_id; auto.
Qed.

(** ** Products *)
Theorem C160_products :
  forall (a b : Serie R) ra rb Q los, repr a 3 ra -> repr b 3 rb -> length ra = length rb -> ra <> [] -> orthogonal Q -> len los = 3%Z ->
  exists a' b' d c p, mapV (turn Q) a = Ok a' /\ mapV (turn Q) b = Ok b' /\
    dot a b = Ok d /\ dot a' b' = Ok d /\
    insar a los = Ok p /\ insar a' (turn Q los) = Ok p /\
    cross a b = Ok c /\ cross a' b' = mapV (fun v => map (Rmult (determinant 3 Q)) (turn Q v)) c /\
    (determinant 3 Q = 1 \/ determinant 3 Q = -1).
Proof.
  intros a b ra rb Q los Ha Hb El Hne O Ll.
  assert (Nb : rb <> []) by (intros ->; destruct ra; [congruence|discriminate El]).
  destruct (turned_repr a 3 ra (turn Q) Ha Hne ltac:(lia) (turn_len Q)) as [Ea Ra]; destruct (turned_repr b 3 rb (turn Q) Hb Nb ltac:(lia) (turn_len Q)) as [Eb Rb].
  pose proof (repr_rows _ _ _ Ha) as La; pose proof (repr_rows _ _ _ Hb) as Lb; unfold rows_of_size in La, Lb.
  assert (Nt : map (turn Q) ra <> []) by (destruct ra; [congruence|discriminate]).
  do 5 eexists; split; [exact Ea|]; split; [exact Eb|]; split; [apply (dot_ok R r_num a b 3 ra rb Ha Hb Hne); lia|]; split.
  { rewrite (dot_ok R r_num _ _ 3 _ _ Ra Rb Nt) by (rewrite !map_length; lia); do 3 f_equal.
    clear - O La Lb; revert rb Lb; induction La as [|u ra Lu La IH]; intros rb Lb; [reflexivity|]; destruct Lb as [|v rb Lv Lb]; [reflexivity|].
    cbn [map map2]; rewrite !sum_prod_inner, inner_turn by assumption; f_equal; apply IH, Lb. }
  split; [apply (C86_insar_partial a ra los Ha Hne Ll)|]; split.
  { rewrite (C86_insar_partial _ _ (turn Q los) Ra Nt eq_refl), map_map; do 3 f_equal; apply map_ext_in; intros v Hv; rewrite Forall_forall in La; apply inner_turn; auto. }
  split; [apply (cross_ok R r_num a b ra rb Ha Hb Hne); lia|]; split.
  { rewrite (cross_ok R r_num _ _ _ _ Ra Rb Nt) by (rewrite !map_length; lia).
    assert (Rc : repr (mk 3 (map2 crossp ra rb) 3) 3 (map2 crossp ra rb)).
    { destruct (repr_bounds _ _ _ Ha) as (_ & B1 & B2).
      assert (L : len (map2 crossp ra rb) = len ra) by (apply len_map2; unfold len; lia).
      apply repr_mk; rewrite ?L; try lia.
      clear - La Lb; revert rb Lb; induction La as [|u ra Lu La IH]; intros rb Lb; [constructor|]; destruct Lb as [|v rb Lv Lb]; constructor; [apply size_cross; assumption|apply IH, Lb]. }
    symmetry; rewrite (proj1 (turned_repr _ 3 _ (fun v => map (Rmult (determinant 3 Q)) (turn Q v)) Rc ltac:(destruct ra, rb; cbn in *; congruence) ltac:(lia) (fun _ => eq_refl))); do 2 f_equal.
    clear - O La Lb; revert rb Lb; induction La as [|u ra Lu La IH]; intros rb Lb; [reflexivity|]; destruct Lb as [|v rb Lv Lb]; [reflexivity|].
    cbn [map map2]; rewrite cross_turn by assumption; f_equal; apply IH, Lb. }
  pose proof (det_orthogonal Q O) as D; assert (((determinant 3 Q - 1) * (determinant 3 Q + 1) = 0)%R) as X by (ring_simplify; lra).
  apply Rmult_integral in X; destruct X; [left|right]; lra.
Qed.
Print Assumptions C160_products.

(** ** Means (under every matrix), lengths and directions *)
Lemma turn_sum M rows : Forall (fun r : list R => len r = 3%Z) rows -> forall z, len z = 3%Z ->
  turn M (fold_left (map2 Rplus) rows z) = fold_left (map2 Rplus) (map (turn M) rows) (turn M z) /\ len (fold_left (map2 Rplus) rows z) = 3%Z.
Proof.
  induction 1 as [|r rows Lr Rr IH]; intros z Lz; cbn [fold_left map]; [split; [reflexivity|exact Lz]|].
  destruct (IH (map2 Rplus z r)) as [E L]; [rewrite len_map2; congruence|]; split; [|exact L]; rewrite E; f_equal.
  destruct (len3 z Lz) as (z0 & z1 & z2 & ->); destruct (len3 r Lr) as (r0 & r1 & r2 & ->).
  unfold turn, mat_vec, upto, LinSpec.total; cbn [seq map map2 fold_right nth]; apply list3; ring.
Qed.
Theorem C160_mean :
  forall (s : Serie R) rows M, repr s 3 rows -> rows <> [] ->
  exists s' m, mapV (turn M) s = Ok s' /\ mean s = Ok (Vector m) /\ mean s' = Ok (Vector (turn M m)).
Proof.
  intros s rows M Hs Hne; destruct (turned_repr s 3 rows (turn M) Hs Hne ltac:(lia) (turn_len M)) as [Es Rs]; pose proof (repr_rows _ _ _ Hs) as Rr; unfold rows_of_size in Rr.
  do 2 eexists; split; [exact Es|]; split; [apply (mean_vector s 3 rows Hs); lia|].
  rewrite (mean_vector _ 3 _ Rs) by lia; do 2 f_equal; rewrite len_map; cbn [n_div n_add n_of_Z r_num].
  destruct (turn_sum M rows Rr (replicate 3 0) eq_refl) as [E L].
  replace (replicate 3 0) with (turn M (replicate 3 0)) at 1 by (change (replicate 3 0) with [0; 0; 0]; unfold turn, mat_vec, upto, LinSpec.total; cbn [seq map fold_right nth]; apply list3; ring).
  rewrite <- E; destruct (len3 _ L) as (x & y & z & ->).
  unfold turn, mat_vec, upto, LinSpec.total; cbn [seq map fold_right nth]; apply list3; unfold Rdiv; ring.
Qed.
Print Assumptions C160_mean.

Lemma square_inner v : square_norm v = inner v v.
Proof. induction v as [|x v IH]; [reflexivity|]; unfold square_norm, inner, LinSpec.total in *; cbn [map2 fold_right]; rewrite <- IH; reflexivity. Qed.
Theorem C160_lengths :
  (forall (s : Serie R) u Q, repr s 3 [u] -> orthogonal Q ->
     exists s' l l2, mapV (turn Q) s = Ok s' /\ norm s = Ok l /\ norm s' = Ok l /\ norm2 s = Ok l2 /\ norm2 s' = Ok l2) /\
  (forall (s : Serie R) rows Q, repr s 3 rows -> rows <> [] -> orthogonal Q -> (forall r, In r rows -> square_norm r <> 0) ->
     exists s' n, mapV (turn Q) s = Ok s' /\ normalize s = Ok n /\ normalize s' = mapV (turn Q) n).
Proof.
  split.
  - intros s u Q Hs O; destruct (turned_repr s 3 [u] (turn Q) Hs ltac:(discriminate) ltac:(lia) (turn_len Q)) as [Es Rs].
    destruct (C76_single_partial s 3 u Hs ltac:(lia)) as [E2 E1]; destruct (C76_single_partial _ 3 (turn Q u) Rs ltac:(lia)) as [E2' E1'].
    pose proof (repr_rows _ _ _ Hs) as Rr; inversion Rr as [|? ? Lu _]; subst; rewrite inner_turn in E2', E1' by assumption.
    do 3 eexists; repeat split; eassumption.
  - intros s rows Q Hs Hne O Nz; destruct (turned_repr s 3 rows (turn Q) Hs Hne ltac:(lia) (turn_len Q)) as [Es Rs].
    pose proof (repr_rows _ _ _ Hs) as Rr; unfold rows_of_size in Rr; rewrite Forall_forall in Rr.
    destruct (C65_normalize_vector s 3 rows Hs ltac:(lia) Hne) as (f & E & Hf).
    destruct (C65_normalize_vector _ 3 _ Rs ltac:(lia) ltac:(destruct rows; [congruence|discriminate])) as (f' & E' & Hf').
    do 2 eexists; split; [exact Es|]; split; [exact E|]; rewrite E'.
    assert (Lf : forall r, In r rows -> len (f r) = 3%Z) by (intros r Hr; destruct (Hf r Hr (Nz r Hr)) as (_ & l & _ & ->); rewrite len_map; auto).
    assert (Rf : repr (mk 3 (map f rows) 3) 3 (map f rows)).
    { destruct (repr_bounds _ _ _ Hs) as (_ & B1 & B2); apply repr_mk; rewrite ?len_map; try lia.
      apply Forall_forall; intros y Hy; apply in_map_iff in Hy; destruct Hy as (r & <- & Hr); auto. }
    symmetry; rewrite (proj1 (turned_repr _ 3 _ (turn Q) Rf ltac:(destruct rows; [congruence|discriminate]) ltac:(lia) (turn_len Q))).
    do 2 f_equal; rewrite !map_map; apply map_ext_in; intros r Hr.
    destruct (Hf r Hr (Nz r Hr)) as (N & l & Pl & El).
    assert (St : square_norm (turn Q r) = square_norm r) by (rewrite !square_inner; apply inner_turn; auto).
    destruct (Hf' (turn Q r) (in_map _ _ _ Hr)) as (N' & l' & Pl' & El'); [rewrite St; auto|].
    assert (Sq : forall (t : R) v, square_norm (map (fun x => x * t) v) = t * t * square_norm v).
    { intros t v; induction v as [|x v IH]; [unfold square_norm; cbn; ring|]; unfold square_norm in *; cbn [map fold_right]; rewrite IH; ring. }
    rewrite El, Sq in N; rewrite El', Sq, St in N'.
    assert (EE : l = l').
    { assert (X : (l - l') * (l + l') = 0).
      { apply (Rmult_eq_reg_r (square_norm r)); [|auto]; transitivity (l * l * square_norm r - l' * l' * square_norm r); [ring|rewrite N, N'; ring]. }
      apply Rmult_integral in X; destruct X; lra. }
    rewrite El, El', EE; destruct (len3 r (Rr r Hr)) as (x & y & z & ->).
    unfold turn, mat_vec, upto, LinSpec.total; cbn [seq map fold_right nth]; apply list3; ring.
Qed.
Print Assumptions C160_lengths.

(** ** Tensors *)
Theorem C160_determinants :
  forall (s : Serie R) rows Q, repr s 9 rows -> dimension s = 3%Z -> rows <> [] -> orthogonal Q ->
  exists s' d, mapV (turn9 Q) s = Ok s' /\ det s = Ok d /\ det s' = Ok d.
Proof.
  intros s rows Q Hs Hd Hne O; destruct (turned_repr s 9 rows (turn9 Q) Hs Hne ltac:(lia) (turn9_len Q)) as [Es Rs].
  do 2 eexists; split; [exact Es|]; split; [apply (C77_full_matrices_partial s 3 rows ltac:(auto) Hs Hd Hne)|].
  rewrite (C77_full_matrices_partial _ 3 _ ltac:(auto) Rs eq_refl) by (destruct rows; [congruence|discriminate]).
  do 3 f_equal; rewrite map_map; apply map_ext; intros v; rewrite turn9_full; apply det_conj, O.
Qed.
Print Assumptions C160_determinants.
Theorem C160_inverses :
  forall (s : Serie R) rows Q, repr s 6 rows -> dimension s = 3%Z -> rows <> [] -> orthogonal Q ->
  exists s', mapV (turn6 Q) s = Ok s' /\
    ((exists r, inv s = Ok r /\ inv s' = mapV (turn6 Q) r) \/ (inv s = Throw RuntimeError /\ inv s' = Throw RuntimeError)).
Proof.
  intros s rows Q Hs Hd Hne O; destruct (turned_repr s 6 rows (turn6 Q) Hs Hne ltac:(lia) (turn6_len Q)) as [Es Rs].
  assert (Nt : map (turn6 Q) rows <> []) by (destruct rows; [congruence|discriminate]).
  pose proof (repr_rows _ _ _ Hs) as Rr; unfold rows_of_size in Rr; rewrite Forall_forall in Rr.
  assert (D : forall v, determinant 3 (sym3 (turn6 Q v)) = determinant 3 (sym3 v)) by (intros v; rewrite turn6_sym; apply det_conj, O).
  eexists; split; [exact Es|].
  destruct (Exists_dec (fun v => Rabs (determinant 3 (sym3 v)) < / 10 ^ 10) rows) as [X|X].
  { intros v; destruct (Rlt_dec (Rabs (determinant 3 (sym3 v))) (/ 10 ^ 10)); [left|right]; assumption. }
  - right; apply Exists_exists in X; destruct X as (v & Hv & Hl); assert (Et : tol = / 10 ^ 10) by (unfold tol; lra).
    split; [apply (C78_refused s rows Hs Hd); exists v; rewrite Et; auto|].
    apply (C78_refused _ _ Rs eq_refl); exists (turn6 Q v); split; [apply in_map, Hv|rewrite D, Et; exact Hl].
  - left; assert (T : forall v, In v rows -> / 10 ^ 10 <= Rabs (determinant 3 (sym3 v))) by (intros v Hv; apply Rnot_lt_le; intros Hl; apply X, Exists_exists; exists v; auto).
    eexists; split; [apply (inv_rows s rows Hs Hd Hne T)|].
    rewrite (inv_rows _ _ Rs eq_refl Nt); [|intros w Hw; apply in_map_iff in Hw; destruct Hw as (v & <- & Hv); rewrite D; auto].
    symmetry; rewrite (proj1 (turned_repr _ 6 _ (turn6 Q) (inv6_repr s rows Hs) ltac:(destruct rows; [congruence|discriminate]) ltac:(lia) (turn6_len Q))).
    do 2 f_equal; rewrite !map_map; apply map_ext_in; intros v Hv.
    assert (Nz : determinant 3 (sym3 v) <> 0) by (intros Z; specialize (T v Hv); rewrite Z, Rabs_R0 in T; lra).
    destruct (inv6_inverse v (Rr v Hv) Nz) as [I1 I2].
    destruct (inv6_inverse (turn6 Q v) (turn6_len Q v)) as [I1' I2']; [rewrite D; exact Nz|].
    apply six_eq; [apply turn6_len|apply inv6_len, turn6_len|].
    apply (inverse_unique (sym3 (turn6 Q v))); [|exact I2'].
    rewrite !turn6_sym, conj_mul, I1 by exact O; apply conj_1, O.
Qed.
Print Assumptions C160_inverses.

(** turning a tensor turns its eigenvectors and keeps its eigenvalues *)
Lemma decomposed_turned Q v mu U : orthogonal Q -> decomposed 3 (sym3 v) mu U -> decomposed 3 (sym3 (turn6 Q v)) mu (mat_mul 3 U (mat_t Q)).
Proof.
  intros O (HU & HE & Hs); split; [|split; [|exact Hs]].
  - transitivity (mat_mul 3 (mat_mul 3 U (mat_t Q)) (mat_mul 3 Q (mat_t U))); [intros i j _ _; unfold mat_mul, mat_t; rewrite !sum3; ring|].
    rewrite mulA, <- (mulA (mat_t Q) Q), (orthogonal_t Q O), mul_1_l; exact HU.
  - intros k i Hk Hi.
    assert (E : mat_eq 3 (mat_mul 3 (sym3 (turn6 Q v)) (mat_mul 3 Q (mat_t U))) (mat_mul 3 Q (fun i k => mu k * U k i))).
    { rewrite turn6_sym; unfold conj; rewrite !mulA, <- (mulA (mat_t Q) Q), (orthogonal_t Q O), mul_1_l.
      assert (X : mat_eq 3 (mat_mul 3 (sym3 v) (mat_t U)) (fun i k => mu k * U k i)) by (intros p q Hp Hq; apply HE; assumption).
      rewrite X; reflexivity. }
    specialize (E i k Hi Hk); transitivity (mat_mul 3 (sym3 (turn6 Q v)) (mat_mul 3 Q (mat_t U)) i k).
    + unfold mat_mul at 1; unfold mat_mul at 1; rewrite !sum3; unfold mat_mul, mat_t; rewrite !sum3; ring.
    + rewrite E; unfold mat_mul, mat_t; rewrite !sum3; ring.
Qed.
Theorem C160_eigenvalues :
  forall (s : Serie R) rows Q, repr s 6 rows -> dimension s = 3%Z -> rows <> [] -> orthogonal Q ->
  exists s' vals vals', mapV (turn6 Q) s = Ok s' /\ eigenValues s = Ok (mk 3 vals 3) /\ eigenValues s' = Ok (mk 3 vals' 3) /\
    length vals = length rows /\ length vals' = length rows /\
    (forall v mu U, In v rows -> decomposed 3 (sym3 v) mu U -> decomposed 3 (sym3 (turn6 Q v)) mu (mat_mul 3 U (mat_t Q))) /\
    forall i v e e', nth_error rows i = Some v -> nth_error vals i = Some e -> nth_error vals' i = Some e' ->
    forall k, (k < 3)%nat -> (nth k e' 0 - nth k e 0) * (nth k e' 0 - nth k e 0) <= 4 / 10 ^ 5 * (off 3 (sym3 v) + off 3 (sym3 (turn6 Q v))).
Proof.
  intros s rows Q Hs Hd Hne O; destruct (turned_repr s 6 rows (turn6 Q) Hs Hne ltac:(lia) (turn6_len Q)) as [Es Rs].
  assert (Nt : map (turn6 Q) rows <> []) by (destruct rows; [congruence|discriminate]).
  destruct (C134_exact_values s 3 rows (or_intror eq_refl) Hs Hd Hne) as (vals & E & F).
  destruct (C134_exact_values _ 3 _ (or_intror eq_refl) Rs eq_refl Nt) as (vals' & E' & F').
  destruct (Forall2_at _ _ _ F) as [L H]; destruct (Forall2_at _ _ _ F') as [L' H']; rewrite map_length in L'.
  exists (mk 6 (map (turn6 Q) rows) 3), vals, vals'; split; [exact Es|]; split; [exact E|]; split; [exact E'|]; split; [lia|]; split; [lia|]; split.
  { intros v mu U _; apply decomposed_turned, O. }
  intros i v e e' Hv He He' k Hk.
  destruct (C134_eigenvalues_exist 3 v (or_intror eq_refl)) as (mu & U & D).
  destruct (H i v e Hv He) as [_ B]; destruct (H' i (turn6 Q v) e') as [_ B']; [rewrite nth_error_map, Hv; reflexivity|exact He'|].
  specialize (B mu U D k Hk); specialize (B' mu _ (decomposed_turned Q v mu U O D) k Hk).
  change (symm 3 v) with (sym3 v) in B; change (symm 3 (turn6 Q v)) with (sym3 (turn6 Q v)) in B'.
  set (x := nth k e' 0 - mu k) in *; set (y := nth k e 0 - mu k) in *; replace (nth k e' 0 - nth k e 0) with (x - y) by (unfold x, y; ring).
  pose proof (Rle_0_sqr (x + y)) as P; unfold Rsqr in P; lra.
Qed.
Print Assumptions C160_eigenvalues.

(** ** The bounding box does depend on the axes: after a half turn about the third axis the lower corner of the box is not the turned lower corner *)
Definition half_turn : Mat := full 3 [-1; 0; 0; 0; -1; 0; 0; 0; 1].
Theorem C160_box_refuted :
  ~ forall (s s' : Serie R) rows Q lo hi, repr s 3 rows -> rows <> [] -> orthogonal Q -> mapV (turn Q) s = Ok s' -> minMax s = Ok (lo, hi) ->
    minMax s' = Ok (turn Q lo, turn Q hi).
Proof.
  intros H; set (rows := [[1; 0; 0]; [2; 0; 0]]).
  assert (Hs : repr (mk 3 rows 3) 3 rows) by repr_ex.
  assert (O : orthogonal half_turn).
  { apply entries; apply entry; unfold mat_mul, mat_t, half_turn, full, mat_id; rewrite sum3; cbn [Nat.mul Nat.add nth Nat.eqb]; ring. }
  destruct (turned_repr _ 3 rows (turn half_turn) Hs ltac:(discriminate) ltac:(lia) (turn_len _)) as [Es Rs].
  specialize (H _ _ rows half_turn _ _ Hs ltac:(discriminate) O Es (minMax_vector (mk 3 rows 3) 3 [1; 0; 0] [[2; 0; 0]] Hs ltac:(lia))).
  change (map (turn half_turn) rows) with [turn half_turn [1; 0; 0]; turn half_turn [2; 0; 0]] in Rs, H.
  rewrite (minMax_vector _ 3 _ _ Rs ltac:(lia)) in H.
  injection H as H _; revert H; unfold turn, mat_vec, half_turn, full; cbn [seq map]; rewrite !sum3; cbn [Nat.mul Nat.add nth fold_left map2].
  unfold n_min; cbn [n_ltb r_num]; intros H.
  rewrite (Rlt_bool_true _ (-1 * 1 + 0 * 0 + 0 * 0)) in H by lra; rewrite (Rlt_bool_false 2 1) in H by lra; lra.
Qed.
Print Assumptions C160_box_refuted.

Example C160_ex :
  let rows := [[1; 2; 2]; [3; 0; 4]] in let v := [2; 1; 0; 2; 0; 3] in
  repr (mk 3 rows 3) 3 rows /\ orthogonal half_turn /\ determinant 3 half_turn = 1 /\ turn half_turn [1; 2; 2] = [-1; -2; 2] /\
  square_norm [1; 2; 2] = 9 /\ repr (mk 6 [v] 3) 6 [v] /\ determinant 3 (sym3 v) = 9 /\ turn6 half_turn [2; 1; 5; 2; 7; 3] = [2; 1; -5; 2; -7; 3].
Proof.
  assert (O : orthogonal half_turn) by (apply entries; apply entry; unfold mat_mul, mat_t, half_turn, full, mat_id; rewrite sum3; cbn [Nat.mul Nat.add nth Nat.eqb]; ring).
  split; [repr_ex|]; split; [exact O|]; split; [det_unfold; unfold half_turn, full; cbn; ring|]; split.
  { unfold turn, mat_vec, half_turn, full; cbn [seq map]; rewrite !sum3; cbn [Nat.mul Nat.add nth]; apply list3; ring. }
  split; [unfold square_norm; cbn; ring|]; split; [repr_ex|]; split; [det_unfold; unfold sym3; cbn; ring|].
  unfold turn6, conj, mat_mul, mat_t; cbn [map fst snd]; rewrite !sum3; unfold half_turn, full, sym3; cbn [Nat.mul Nat.add nth]; repeat (f_equal; [ring|]); f_equal; ring.
Qed.
