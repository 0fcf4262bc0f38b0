(** * Eigenvalues of symmetric matrices, over the reals: existence, and how approximate pairs bound them. *)
From Coq Require Import Reals Lra Psatz Ranalysis.
From Verif Require Import Base Num Spec LinSpec RNum JacobiSpec JacobiFacts F64Rot.
Open Scope R_scope.

(** [U k] is a unit vector with A u_k = mu_k u_k, the vectors are orthogonal, the values decrease *)
Definition decomposed (n : nat) (A : Mat) (mu : nat -> R) (U : Mat) : Prop :=
  mat_eq n (mat_mul n U (mat_t U)) mat_id /\
  (forall k i, (k < n)%nat -> (i < n)%nat -> upto n (fun j => A i j * U k j) = mu k * U k i) /\
  (forall k, (S k < n)%nat -> mu (S k) <= mu k).

(** ** Square matrices with orthonormal rows have orthonormal columns *)
Lemma upto_id n : upto n (fun i => mat_id i i) = INR n.
Proof. induction n as [|n IH]; [reflexivity|]; rewrite upto_S, S_INR, IH; unfold mat_id; rewrite Nat.eqb_refl; reflexivity. Qed.
Lemma ip_id n X : ip n X mat_id = upto n (fun i => X i i).
Proof.
  unfold ip; apply upto_ext; intros i Hi; rewrite (upto_ext n _ (fun j => X i j * mat_id j i)); [apply (upto_delta n i (fun j => X i j) Hi)|].
  intros j _; unfold mat_id; rewrite Nat.eqb_sym; reflexivity.
Qed.
Lemma gram_fro2 n U : fro2 n (mat_mul n (mat_t U) U) = fro2 n (mat_mul n U (mat_t U)).
Proof.
  assert (G : forall X : Mat, fro2 n (mat_mul n (mat_t X) X) = upto n (fun i => upto n (fun j => upto n (fun k => upto n (fun l => X k i * X k j * (X l i * X l j)))))).
  { intros X; unfold fro2, mat_mul, mat_t; apply upto_ext; intros i Hi; apply upto_ext; intros j Hj.
    rewrite <- upto_scal_r; apply upto_ext; intros k Hk; rewrite <- upto_scal; reflexivity. }
  rewrite (G U); change (mat_mul n U (mat_t U)) with (mat_mul n (mat_t (mat_t U)) (mat_t U)); rewrite (G (mat_t U)); unfold mat_t.
  (* sum over i j k l, regrouped *)
  rewrite (upto_ext n _ (fun i => upto n (fun k => upto n (fun l => upto n (fun j => U k i * U k j * (U l i * U l j)))))).
  2: { intros i Hi; rewrite upto_swap; apply upto_ext; intros k Hk; rewrite upto_swap; reflexivity. }
  rewrite upto_swap; apply upto_ext; intros k Hk; rewrite upto_swap; apply upto_ext; intros l Hl.
  apply upto_ext; intros i Hi; apply upto_ext; intros j Hj; ring.
Qed.
Lemma fro2_null n X : fro2 n X = 0 -> forall i j, (i < n)%nat -> (j < n)%nat -> X i j = 0.
Proof.
  intros H i j Hi Hj; pose proof (fro2_entry n X i j 0 ltac:(lra) ltac:(lra) Hi Hj) as P.
  destruct (Req_dec (X i j) 0) as [|N]; [assumption|]; apply Rabs_pos_lt in N; lra.
Qed.
Lemma rows_cols n U : orthonormal_rows n U -> orthonormal_cols n U.
Proof.
  intros H; unfold orthonormal_cols, orthonormal_rows in *.
  set (P := mat_mul n (mat_t U) U).
  assert (FI : fro2 n (mat_mul n U (mat_t U)) = INR n).
  { rewrite (fro2_ext n _ mat_id) by exact H; change (fro2 n mat_id) with (ip n mat_id mat_id); rewrite ip_id; apply upto_id. }
  assert (TP : ip n P mat_id = INR n).
  { rewrite ip_id; unfold P, mat_mul, mat_t; rewrite upto_swap, <- upto_id; apply upto_ext; intros k Hk; rewrite <- (H k k Hk Hk); reflexivity. }
  assert (E : fro2 n (fun i j => 1 * P i j + (- (1)) * mat_id i j) = 0).
  { rewrite fro2_lin, TP; unfold P; rewrite gram_fro2, FI; change (fro2 n mat_id) with (ip n mat_id mat_id); rewrite ip_id, upto_id; ring. }
  intros i j Hi Hj; pose proof (fro2_null n _ E i j Hi Hj) as G; cbv beta in G; fold P; lra.
Qed.

(** ** The quadratic form of a vector *)
Definition along (n : nat) (V : Mat) (x : nat -> R) (k : nat) : R := upto n (fun i => V k i * x i).
Lemma expansion n V x i : orthonormal_cols n V -> (i < n)%nat -> x i = upto n (fun k => along n V x k * V k i).
Proof.
  intros H Hi; unfold along; symmetry.
  rewrite (upto_ext n _ (fun k => upto n (fun j => V k j * V k i * x j))) by (intros k Hk; rewrite <- upto_scal_r; apply upto_ext; intros; ring).
  rewrite upto_swap, (upto_ext n _ (fun j => x j * mat_id j i)); [apply (upto_delta n i x Hi)|].
  intros j Hj; rewrite upto_scal_r, <- (H j i Hj Hi), Rmult_comm; reflexivity.
Qed.
Lemma form_residual n A e V x : orthonormal_cols n V ->
  form n A x x = upto n (fun k => e k * (along n V x k * along n V x k)) +
    ip n (fun k i => along n V x k * x i) (fun k i => upto n (fun j => A i j * V k j) - e k * V k i).
Proof.
  intros Hc; unfold form, ip.
  rewrite (upto_ext n (fun i => upto n (fun j => x i * A i j * x j)) (fun i => upto n (fun k => (along n V x k * x i) * upto n (fun j => A i j * V k j)))).
  2: { intros i Hi.
    rewrite (upto_ext n (fun j => x i * A i j * x j) (fun j => upto n (fun k => (along n V x k * x i) * (A i j * V k j)))).
    - rewrite upto_swap; apply upto_ext; intros k Hk; apply upto_scal.
    - intros j Hj; rewrite (expansion n V x j Hc Hj); rewrite <- upto_scal; apply upto_ext; intros; ring. }
  rewrite upto_swap, <- upto_plus; apply upto_ext; intros k Hk.
  transitivity (upto n (fun i => along n V x k * x i * (upto n (fun j => A i j * V k j) - e k * V k i) + (e k * along n V x k) * (V k i * x i))).
  - apply upto_ext; intros i Hi; ring.
  - rewrite upto_plus, (upto_scal n (e k * along n V x k)); fold (along n V x k); ring.
Qed.
Lemma cauchy n X Y : 0 < fro2 n X -> ip n X Y * ip n X Y <= fro2 n X * fro2 n Y.
Proof.
  intros H; pose proof (fro2_ge0 n (fun i j => (- ip n X Y) * X i j + fro2 n X * Y i j)) as P; rewrite fro2_lin in P.
  apply (Rmult_le_reg_l (fro2 n X)); [exact H|]; nra.
Qed.
Lemma fro2_outer n (u v : nat -> R) : fro2 n (fun k i => u k * v i) = upto n (fun k => u k * u k) * upto n (fun i => v i * v i).
Proof.
  unfold fro2; rewrite <- upto_scal_r; apply upto_ext; intros k Hk; rewrite <- upto_scal; apply upto_ext; intros; ring.
Qed.
(** the value of the form is near the weighted sum of the approximate values *)
Lemma rayleigh n A e V x : orthonormal_rows n V -> 0 < upto n (fun i => x i * x i) ->
  let N := upto n (fun i => x i * x i) in
  let d := form n A x x - upto n (fun k => e k * (along n V x k * along n V x k)) in
  d * d <= N * N * residual n A e V.
Proof.
  intros Hr HN N d; pose proof (rows_cols n V Hr) as Hc; subst d; rewrite (form_residual n A e V x Hc).
  set (X := fun k i => along n V x k * x i : R); set (Y := fun k i => upto n (fun j => A i j * V k j) - e k * V k i : R).
  assert (EX : fro2 n X = N * N) by (unfold X; rewrite fro2_outer; unfold N; rewrite (parseval n V x Hc) at 2; reflexivity).
  replace (residual n A e V) with (fro2 n Y) by reflexivity.
  rewrite <- EX; replace (upto n (fun k => e k * (along n V x k * along n V x k)) + ip n X Y - upto n (fun k => e k * (along n V x k * along n V x k))) with (ip n X Y) by ring.
  apply cauchy; rewrite EX; apply Rmult_lt_0_compat; exact HN.
Qed.
Lemma decomposed_form n A mu U x : decomposed n A mu U -> form n A x x = upto n (fun k => mu k * (along n U x k * along n U x k)).
Proof.
  intros (Hr & He & _); rewrite (form_residual n A mu U x (rows_cols n U Hr)).
  replace (ip n _ _) with 0; [ring|]; symmetry; unfold ip; rewrite (upto_ext n _ (fun _ => 0)); [apply upto_0|]; intros k Hk.
  rewrite (upto_ext n _ (fun _ => 0)); [apply upto_0|]; intros i Hi; rewrite He by assumption; ring.
Qed.
Lemma weigh n V x (e : nat -> R) b : orthonormal_rows n V -> (forall k, (k < n)%nat -> along n V x k = 0 \/ e k <= b) ->
  upto n (fun k => e k * (along n V x k * along n V x k)) <= b * upto n (fun i => x i * x i).
Proof.
  intros Hr H; rewrite (parseval n V x (rows_cols n V Hr)), <- upto_scal.
  apply Rminus_le; replace (_ - _) with (- upto n (fun k => (b - e k) * (along n V x k * along n V x k))).
  - assert (0 <= upto n (fun k => (b - e k) * (along n V x k * along n V x k))); [|lra]; apply upto_pos; intros k Hk.
    destruct (H k Hk) as [-> | L]; [lra|]; apply Rmult_le_pos; [lra|apply Rle_0_sqr].
  - transitivity (upto n (fun k => (-1) * ((b - e k) * (along n V x k * along n V x k)))); [rewrite upto_scal; ring|].
    symmetry; transitivity (upto n (fun k => 1 * (e k * (along n V x k * along n V x k)) + (-1) * (b * (along n V x k * along n V x k)))); [rewrite upto_lin; unfold along; ring|].
    apply upto_ext; intros; ring.
Qed.

(** ** A vector orthogonal to the last vectors of one basis and the first ones of another *)
Definition sq (n : nat) (x : nat -> R) : R := upto n (fun i => x i * x i).
Lemma unit_row n V k : orthonormal_rows n V -> (k < n)%nat -> sq n (V k) = 1.
Proof. intros H Hk; pose proof (H k k Hk Hk) as E; unfold mat_mul, mat_t, mat_id in E; rewrite Nat.eqb_refl in E; exact E. Qed.
Lemma along_row n V k j : orthonormal_rows n V -> (k < n)%nat -> (j < n)%nat -> k <> j -> along n V (V k) j = 0.
Proof.
  intros H Hk Hj N; pose proof (H j k Hj Hk) as E; unfold mat_mul, mat_t, mat_id in E.
  destruct (Nat.eqb_spec j k) as [->|_]; [lia|exact E].
Qed.
Definition vec3 (a b c : R) : nat -> R := fun i => match i with O => a | S O => b | _ => c end.
Lemma orthogonal3 (a b : nat -> R) : 0 < sq 3 a -> exists x, 0 < sq 3 x /\ upto 3 (fun i => a i * x i) = 0 /\ upto 3 (fun i => b i * x i) = 0.
Proof.
  assert (E : forall f : nat -> R, upto 3 f = f 0%nat + f 1%nat + f 2%nat) by (intros f; unfold upto, LinSpec.total; cbn; ring).
  intros Ha; unfold sq in *; rewrite E in Ha.
  set (c0 := a 1%nat * b 2%nat - a 2%nat * b 1%nat); set (c1 := a 2%nat * b 0%nat - a 0%nat * b 2%nat); set (c2 := a 0%nat * b 1%nat - a 1%nat * b 0%nat).
  destruct (Req_dec (c0 * c0 + c1 * c1 + c2 * c2) 0) as [Z0|N].
  - assert (c0 = 0 /\ c1 = 0 /\ c2 = 0) as (C0 & C1 & C2) by (repeat split; nra).
    destruct (Req_dec (a 0%nat * a 0%nat + a 1%nat * a 1%nat) 0) as [Z1|N1].
    + assert (A0 : a 0%nat = 0) by nra; assert (A1 : a 1%nat = 0) by nra.
      exists (vec3 (a 2%nat) 0 (- a 0%nat)); unfold sq; rewrite !E; cbn [vec3]; rewrite A0, A1 in *; unfold c1 in C1; repeat split; nra.
    + exists (vec3 (- a 1%nat) (a 0%nat) 0); unfold sq; rewrite !E; cbn [vec3]; unfold c2 in C2; repeat split; nra.
  - exists (vec3 c0 c1 c2); unfold sq; rewrite !E; cbn [vec3]; split; [nra|]; unfold c0, c1, c2; split; ring.
Qed.
Lemma between n P Q k : (n = 2 \/ n = 3)%nat -> orthonormal_rows n P -> orthonormal_rows n Q -> (k < n)%nat ->
  exists x, 0 < sq n x /\ (forall j, (j < n)%nat -> (k < j)%nat -> along n P x j = 0) /\ (forall j, (j < n)%nat -> (j < k)%nat -> along n Q x j = 0).
Proof.
  intros Hn HP HQ Hk.
  destruct (Nat.eq_dec k 0) as [->|Hk0].
  { exists (P 0%nat); rewrite (unit_row n P 0 HP Hk); split; [lra|split; [intros; apply along_row; trivial; lia|intros; lia]]. }
  destruct (Nat.eq_dec (S k) n) as [E|Hkn].
  { exists (Q k); rewrite (unit_row n Q k HQ Hk); split; [lra|split; [intros; lia|intros; apply along_row; trivial; lia]]. }
  assert (n = 3 /\ k = 1)%nat as [-> ->] by lia.
  destruct (orthogonal3 (P 2%nat) (Q 0%nat)) as (x & Hx & E1 & E2); [rewrite (unit_row 3 P 2 HP) by lia; lra|].
  exists x; split; [exact Hx|split; intros j Hj Hj'].
  - assert (j = 2)%nat as -> by lia; exact E1.
  - assert (j = 0)%nat as -> by lia; exact E2.
Qed.

(** ** Approximate pairs bound the eigenvalues, place by place *)
Definition decreasing (n : nat) (e : nat -> R) : Prop := forall k, (S k < n)%nat -> e (S k) <= e k.
Lemma decreasing_le n e i j : decreasing n e -> (i <= j)%nat -> (j < n)%nat -> e j <= e i.
Proof. intros H Hij Hj; induction Hij as [|j Hij IH]; [lra|]; apply Rle_trans with (e j); [apply H; exact Hj|apply IH; lia]. Qed.
Lemma square_side (N a r : R) : 0 < N -> 0 <= a -> (N * a) * (N * a) <= N * N * r -> a * a <= r.
Proof. intros HN Ha H; apply (Rmult_le_reg_l (N * N)); [nra|]; replace (N * N * (a * a)) with (N * a * (N * a)) by ring; exact H. Qed.
Lemma grow_square d t : 0 <= t -> t <= d -> t * t <= d * d.
Proof. intros; apply Rmult_le_compat; lra. Qed.

Theorem eigenvalues_near n A mu U e V : (n = 2 \/ n = 3)%nat -> decomposed n A mu U -> orthonormal_rows n V -> decreasing n e ->
  forall k, (k < n)%nat -> (e k - mu k) * (e k - mu k) <= residual n A e V.
Proof.
  intros Hn HU HV He k Hk; pose proof HU as (Ur & _ & Um).
  destruct (Rle_lt_dec (mu k) (e k)) as [L|L].
  - destruct (between n V U k Hn HV Ur Hk) as (x & Hx & Bv & Bu).
    pose proof (rayleigh n A e V x HV Hx) as R; cbv zeta in R; fold (sq n x) in R.
    assert (F : form n A x x <= mu k * sq n x).
    { rewrite (decomposed_form n A mu U x HU); apply weigh; [exact Ur|]; intros j Hj.
      destruct (le_lt_dec k j); [right; apply (decreasing_le n); assumption|left; apply Bu; assumption]. }
    assert (G : e k * sq n x <= upto n (fun j => e j * (along n V x j * along n V x j))).
    { pose proof (weigh n V x (fun j => - e j) (- e k) HV) as W.
      assert (W' : upto n (fun j => - e j * (along n V x j * along n V x j)) <= - e k * sq n x).
      { apply W; intros j Hj; destruct (le_lt_dec j k); [right; assert (e k <= e j) by (apply (decreasing_le n); assumption); lra|left; apply Bv; assumption]. }
      rewrite (upto_ext n _ (fun j => (-1) * (e j * (along n V x j * along n V x j)))), upto_scal in W' by (intros; ring); lra. }
    apply (square_side (sq n x)); [exact Hx|lra|].
    apply Rle_trans with (2 := R); set (w := upto n _) in *; set (q := form n A x x) in *.
    replace ((q - w) * (q - w)) with ((w - q) * (w - q)) by ring; apply grow_square; [apply Rmult_le_pos; lra|nra].
  - destruct (between n U V k Hn Ur HV Hk) as (x & Hx & Bu & Bv).
    pose proof (rayleigh n A e V x HV Hx) as R; cbv zeta in R; fold (sq n x) in R.
    assert (F : upto n (fun j => e j * (along n V x j * along n V x j)) <= e k * sq n x).
    { apply weigh; [exact HV|]; intros j Hj.
      destruct (le_lt_dec k j); [right; apply (decreasing_le n); assumption|left; apply Bv; assumption]. }
    assert (G : mu k * sq n x <= form n A x x).
    { rewrite (decomposed_form n A mu U x HU); pose proof (weigh n U x (fun j => - mu j) (- mu k) Ur) as W.
      assert (W' : upto n (fun j => - mu j * (along n U x j * along n U x j)) <= - mu k * sq n x).
      { apply W; intros j Hj; destruct (le_lt_dec j k); [right; assert (mu k <= mu j) by (apply (decreasing_le n); assumption); lra|left; apply Bu; assumption]. }
      rewrite (upto_ext n _ (fun j => (-1) * (mu j * (along n U x j * along n U x j)))), upto_scal in W' by (intros; ring); lra. }
    replace ((e k - mu k) * (e k - mu k)) with ((mu k - e k) * (mu k - e k)) by ring.
    apply (square_side (sq n x)); [exact Hx|lra|].
    apply Rle_trans with (2 := R); set (w := upto n _) in *; set (q := form n A x x) in *.
    apply grow_square; [apply Rmult_le_pos; lra|nra].
Qed.

(** ** Every symmetric matrix of size 2 or 3 is decomposed *)
Lemma diagonal_decomposes n A Q B : orthonormal_rows n Q -> in_basis n A Q B -> (forall i j, (i < n)%nat -> (j < n)%nat -> i <> j -> B i j = 0) ->
  forall k i, (k < n)%nat -> (i < n)%nat -> upto n (fun j => A i j * Q k j) = B k k * Q k i.
Proof.
  intros Hr Hb HB k i Hk Hi; pose proof (residual_basis n A Q B Hr (rows_cols n Q Hr) Hb) as E.
  rewrite (upto_ext n (fun k => upto n (fun j => (B j k - B k k * mat_id j k) * (B j k - B k k * mat_id j k))) (fun _ => 0)), upto_0 in E.
  - pose proof (fro2_null n (fun k i => upto n (fun j => A i j * Q k j) - B k k * Q k i) E k i Hk Hi) as G; cbv beta in G; lra.
  - intros q Hq; rewrite (upto_ext n _ (fun _ => 0)); [apply upto_0|]; intros j Hj; unfold mat_id.
    destruct (Nat.eqb_spec j q) as [->|N]; [ring|rewrite (HB j q Hj Hq N); ring].
Qed.
Lemma reorder n A mu U (p : nat -> nat) : (forall k, (k < n)%nat -> (p k < n)%nat) -> (forall i j, (i < n)%nat -> (j < n)%nat -> p i = p j -> i = j) ->
  orthonormal_rows n U -> (forall k i, (k < n)%nat -> (i < n)%nat -> upto n (fun j => A i j * U k j) = mu k * U k i) ->
  (forall k, (S k < n)%nat -> mu (p (S k)) <= mu (p k)) -> decomposed n A (fun k => mu (p k)) (fun k => U (p k)).
Proof.
  intros Hp Hi Hr He Hm; split; [|split; [intros k i Hk H; apply He; [apply Hp, Hk|exact H]|exact Hm]].
  intros i j Hi' Hj'; transitivity (mat_id (p i) (p j)); [exact (Hr (p i) (p j) (Hp i Hi') (Hp j Hj'))|]; unfold mat_id.
  destruct (Nat.eqb_spec i j) as [->|N]; [rewrite Nat.eqb_refl; reflexivity|].
  destruct (Nat.eqb_spec (p i) (p j)) as [E|_]; [exfalso; apply N, Hi; assumption|reflexivity].
Qed.
Definition perm3 (a b c : nat) : nat -> nat := fun i => match i with O => a | S O => b | _ => c end.
Lemma ordered n A mu U : (n = 2 \/ n = 3)%nat -> orthonormal_rows n U -> (forall k i, (k < n)%nat -> (i < n)%nat -> upto n (fun j => A i j * U k j) = mu k * U k i) ->
  exists mu' U', decomposed n A mu' U'.
Proof.
  intros Hn Hr He.
  assert (G : exists p : nat -> nat, (forall k, (k < n)%nat -> (p k < n)%nat) /\ (forall i j, (i < n)%nat -> (j < n)%nat -> p i = p j -> i = j) /\ (forall k, (S k < n)%nat -> mu (p (S k)) <= mu (p k))).
  { destruct Hn as [-> | ->].
    - destruct (Rle_lt_dec (mu 1%nat) (mu 0%nat)); [exists (perm3 0 1 1)|exists (perm3 1 0 0)];
        (split; [intros [|[|k]] ?; cbn; lia|split; [intros [|[|i]] [|[|j]] ? ?; cbn; intros; lia|intros [|k] ?; cbn; try lia; lra]]).
    - destruct (Rle_lt_dec (mu 1%nat) (mu 0%nat)); destruct (Rle_lt_dec (mu 2%nat) (mu 0%nat)); destruct (Rle_lt_dec (mu 2%nat) (mu 1%nat));
        [exists (perm3 0 1 2)|exists (perm3 0 2 1)|exists (perm3 2 0 1)|exists (perm3 2 0 1)|exists (perm3 1 0 2)|exists (perm3 1 0 2)|exists (perm3 1 2 0)|exists (perm3 2 1 0)];
        (split; [intros [|[|[|k]]] ?; cbn; lia|split; [intros [|[|[|i]]] [|[|[|j]]] ? ?; cbn; intros; lia|intros [|[|k]] ?; cbn; try lia; lra]]). }
  destruct G as (p & P1 & P2 & P3); do 2 eexists; apply (reorder n A mu U p); assumption.
Qed.
(** turning two vectors of a basis to remove one entry of the form *)
Lemma turned_away n A Q B l m : (l < n)%nat -> (m < n)%nat -> l <> m -> orthonormal_rows n Q -> in_basis n A Q B -> B m l = B l m ->
  exists c s, orthonormal_rows n (turn l m c s Q) /\ in_basis n A (turn l m c s Q) (turned l m c s B) /\ turned l m c s B l m = 0 /\ turned l m c s B m l = 0.
Proof.
  intros Hl Hm Hne Hr Hb S; set (x := @Eigen.angle R r_num (B l m) (B l l) (B m m)).
  pose proof (angle_zero (B l m) (B l l) (B m m)) as AZ; cbv zeta in AZ; fold x in AZ; pose proof (angle_pythagoras x) as AP.
  exists (cos x), (sin x); split; [apply turn_rows; assumption|split; [apply turned_in_basis; assumption|]].
  unfold turned, mat_t, turn; rewrite !Nat.eqb_refl.
  destruct (Nat.eqb_spec m l) as [->|_]; [lia|]; rewrite S; split; [transitivity (sin x * cos x * (B l l - B m m) + (cos x * cos x - sin x * sin x) * B l m); [ring|exact AZ]|].
  transitivity (sin x * cos x * (B l l - B m m) + (cos x * cos x - sin x * sin x) * B l m); [ring|exact AZ].
Qed.
Lemma identity_in_basis n A : in_basis n A mat_id A /\ orthonormal_rows n mat_id.
Proof.
  split; intros i j Hi Hj.
  - unfold form; symmetry; transitivity (upto n (fun k => A k j * mat_id k i)); [|apply (upto_delta n i (fun k => A k j) Hi)]; apply upto_ext; intros k Hk.
    transitivity (upto n (fun q => (mat_id i k * A k q) * mat_id q j)); [apply upto_ext; intros q Hq; unfold mat_id; rewrite (Nat.eqb_sym j q); ring|].
    rewrite (upto_delta n j (fun q => mat_id i k * A k q) Hj); unfold mat_id; rewrite (Nat.eqb_sym i k); ring.
  - unfold mat_mul, mat_t; transitivity (upto n (fun k => mat_id i k * mat_id k j)); [apply upto_ext; intros k Hk; unfold mat_id; rewrite (Nat.eqb_sym j k); reflexivity|].
    apply (upto_delta n j (fun k => mat_id i k) Hj).
Qed.

Lemma sum3 (f : nat -> R) : upto 3 f = f 0%nat + f 1%nat + f 2%nat.
Proof. unfold upto, LinSpec.total; cbn; ring. Qed.
Definition det3 (a b c : nat -> R) : R :=
  a 0%nat * (b 1%nat * c 2%nat - b 2%nat * c 1%nat) - a 1%nat * (b 0%nat * c 2%nat - b 2%nat * c 0%nat) + a 2%nat * (b 0%nat * c 1%nat - b 1%nat * c 0%nat).
Lemma kernel3 a b c : det3 a b c = 0 -> exists x, 0 < sq 3 x /\ upto 3 (fun i => a i * x i) = 0 /\ upto 3 (fun i => b i * x i) = 0 /\ upto 3 (fun i => c i * x i) = 0.
Proof.
  intros D; assert (Sq : forall v : nat -> R, 0 <= sq 3 v) by (intros v; apply upto_pos; intros; apply Rle_0_sqr).
  assert (Null : forall v, sq 3 v <= 0 -> forall x, upto 3 (fun i => v i * x i) = 0).
  { intros v Hv x; unfold sq in Hv; rewrite sum3 in *; assert (v 0%nat = 0) by nra; assert (v 1%nat = 0) by nra; assert (v 2%nat = 0) by nra; nra. }
  destruct (Rle_lt_dec (sq 3 a) 0) as [A0|A1].
  - destruct (Rle_lt_dec (sq 3 b) 0) as [B0|B1]; [|destruct (orthogonal3 b c B1) as (x & Hx & E1 & E2); exists x; auto].
    destruct (Rle_lt_dec (sq 3 c) 0) as [C0|C1]; [|destruct (orthogonal3 c c C1) as (x & Hx & E1 & E2); exists x; auto].
    exists (vec3 1 0 0); split; [unfold sq; rewrite sum3; cbn [vec3]; lra|auto].
  - unfold det3 in D; unfold sq in A1; rewrite sum3 in A1.
    set (p0 := a 1%nat * b 2%nat - a 2%nat * b 1%nat); set (p1 := a 2%nat * b 0%nat - a 0%nat * b 2%nat); set (p2 := a 0%nat * b 1%nat - a 1%nat * b 0%nat).
    set (q0 := a 1%nat * c 2%nat - a 2%nat * c 1%nat); set (q1 := a 2%nat * c 0%nat - a 0%nat * c 2%nat); set (q2 := a 0%nat * c 1%nat - a 1%nat * c 0%nat).
    destruct (Req_dec (p0 * p0 + p1 * p1 + p2 * p2) 0) as [P|P].
    + assert (p0 = 0 /\ p1 = 0 /\ p2 = 0) as (P0 & P1 & P2) by (repeat split; nra).
      destruct (Req_dec (q0 * q0 + q1 * q1 + q2 * q2) 0) as [Q|Q].
      * assert (q0 = 0 /\ q1 = 0 /\ q2 = 0) as (Q0 & Q1 & Q2) by (repeat split; nra).
        destruct (Req_dec (a 0%nat * a 0%nat + a 1%nat * a 1%nat) 0) as [Z1|N1].
        -- assert (A0 : a 0%nat = 0) by nra; assert (A1' : a 1%nat = 0) by nra.
           exists (vec3 (a 2%nat) 0 (- a 0%nat)); unfold sq; rewrite !sum3; cbn [vec3]; unfold p1 in P1; unfold q1 in Q1; rewrite A0, A1' in *; repeat split; nra.
        -- exists (vec3 (- a 1%nat) (a 0%nat) 0); unfold sq; rewrite !sum3; cbn [vec3]; unfold p2 in P2; unfold q2 in Q2; repeat split; nra.
      * exists (vec3 q0 q1 q2); unfold sq; rewrite !sum3; cbn [vec3]; split; [nra|]; unfold q0, q1, q2; split; [ring|split; [|ring]].
        apply (Rmult_eq_reg_l (-1)); [|lra]; rewrite Rmult_0_r, <- D; ring.
    + exists (vec3 p0 p1 p2); unfold sq; rewrite !sum3; cbn [vec3]; split; [nra|]; unfold p0, p1, p2; split; [ring|split; [ring|rewrite <- D; ring]].
Qed.
Lemma cubic_root (al be ga : R) : exists t, t * t * t + al * (t * t) + be * t + ga = 0.
Proof.
  set (f := fun t : R => t * t * t + al * (t * t) + be * t + ga); set (T := 1 + Rabs al + Rabs be + Rabs ga).
  assert (C : continuity f) by (unfold f; reg).
  pose proof (Rabs_pos al); pose proof (Rabs_pos be); pose proof (Rabs_pos ga).
  pose proof (Rle_abs al); pose proof (Rle_abs be); pose proof (Rle_abs ga); pose proof (Rle_abs (- al)); pose proof (Rle_abs (- be)); pose proof (Rle_abs (- ga)); rewrite Rabs_Ropp in *.
  assert (T1 : 1 <= T) by (unfold T; lra); assert (TT : 1 <= T * T) by nra; assert (TL : T <= T * T) by nra.
  assert (K1 : Rabs al * (T * T) + Rabs be * T + Rabs ga <= (Rabs al + Rabs be + Rabs ga) * (T * T)) by nra.
  assert (K2 : (Rabs al + Rabs be + Rabs ga) * (T * T) = (T - 1) * (T * T)) by (unfold T; ring).
  assert (P : 0 <= f T). { unfold f; assert (- Rabs al * (T * T) <= al * (T * T)) by nra; assert (- Rabs be * T <= be * T) by nra; nra. }
  assert (M : f (- T) <= 0). { unfold f; replace (- T * - T) with (T * T) by ring; assert (al * (T * T) <= Rabs al * (T * T)) by nra; assert (be * - T <= Rabs be * T) by nra; nra. }
  destruct (IVT_cor f (- T) T C) as (t & _ & Ht); [lra|nra|]; exists t; exact Ht.
Qed.
Lemma eigenvector3 (A : Mat) : (forall i j, A i j = A j i) -> exists mu x, 0 < sq 3 x /\ forall i, (i < 3)%nat -> upto 3 (fun j => A i j * x j) = mu * x i.
Proof.
  intros S; set (a := A 0%nat 0%nat); set (b := A 0%nat 1%nat); set (c := A 0%nat 2%nat); set (d := A 1%nat 1%nat); set (e := A 1%nat 2%nat); set (f := A 2%nat 2%nat).
  destruct (cubic_root (- (a + d + f)) (a * d + a * f + d * f - b * b - c * c - e * e) (- (a * (d * f - e * e) - b * (b * f - e * c) + c * (b * e - d * c)))) as (t & Ht).
  destruct (kernel3 (vec3 (a - t) b c) (vec3 b (d - t) e) (vec3 c e (f - t))) as (x & Hx & E0 & E1 & E2).
  - unfold det3; cbn [vec3]; apply (Rmult_eq_reg_l (-1)); [|lra]; rewrite Rmult_0_r, <- Ht; ring.
  - exists t, x; split; [exact Hx|]; rewrite sum3 in E0, E1, E2; cbn [vec3] in *.
    intros i Hi; rewrite sum3; destruct i as [|[|[|i]]]; try lia.
    + fold a b c; lra.
    + rewrite (S 1%nat 0%nat); fold b d e; lra.
    + rewrite (S 2%nat 0%nat), (S 2%nat 1%nat); fold c e f; lra.
Qed.
(** an orthonormal basis with a given direction first *)
Definition rows3 (u v w : nat -> R) : Mat := fun k => match k with O => u | S O => v | _ => w end.
Lemma completed (x : nat -> R) : sq 3 x = 1 -> exists v w, orthonormal_rows 3 (rows3 x v w).
Proof.
  intros Hx; unfold sq in Hx; rewrite sum3 in Hx.
  set (p := x 0%nat); set (q := x 1%nat); set (r := x 2%nat); fold p q r in Hx.
  destruct (Req_dec (p * p + q * q) 0) as [E|N].
  - assert (P0 : p = 0) by nra; assert (Q0 : q = 0) by nra; exists (vec3 1 0 0), (vec3 0 1 0).
    intros i j Hi Hj; destruct i as [|[|[|i]]]; destruct j as [|[|[|j]]]; try lia; unfold mat_mul, mat_t; rewrite sum3; cbn [rows3 vec3]; fold p q r; rewrite ?P0, ?Q0 in *; cbv [mat_id Nat.eqb]; nra.
  - assert (HN : 0 < p * p + q * q) by nra; set (s := sqrt (p * p + q * q)); assert (Hs : 0 < s) by (apply sqrt_lt_R0; exact HN).
    assert (SS : s * s = p * p + q * q) by (apply sqrt_sqrt; lra).
    set (g := p / s); set (h := q / s); assert (Eg : p = g * s) by (unfold g; field; lra); assert (Eh : q = h * s) by (unfold h; field; lra).
    assert (GH : g * g + h * h = 1) by (unfold g, h; replace (p / s * (p / s) + q / s * (q / s)) with ((p * p + q * q) / (s * s)) by (field; lra); rewrite SS; field; lra).
    assert (RS : r * r + s * s = 1) by lra.
    exists (vec3 (- h) g 0), (vec3 (- (r * g)) (- (r * h)) s).
    intros i j Hi Hj; destruct i as [|[|[|i]]]; destruct j as [|[|[|j]]]; try lia; unfold mat_mul, mat_t; rewrite sum3; cbn [rows3 vec3]; fold p q r; rewrite ?Eg, ?Eh; cbv [mat_id Nat.eqb].
    all: try ring.
    + transitivity ((g * g + h * h) * (s * s) + r * r); [ring|rewrite GH; lra].
    + transitivity (r * s * (1 - (g * g + h * h))); [ring|rewrite GH; ring].
    + transitivity (g * g + h * h); [ring|exact GH].
    + transitivity (r * s * (1 - (g * g + h * h))); [ring|rewrite GH; ring].
    + transitivity ((g * g + h * h) * (r * r) + s * s); [ring|rewrite GH; lra].
Qed.
Lemma decomposition_all n A : (n = 2 \/ n = 3)%nat -> (forall i j, A i j = A j i) -> exists mu U, decomposed n A mu U.
Proof.
  intros Hn S; destruct Hn as [-> | ->].
  - destruct (identity_in_basis 2 A) as [Hb Hr].
    destruct (turned_away 2 A mat_id A 0 1 ltac:(lia) ltac:(lia) ltac:(lia) Hr Hb (S _ _)) as (c & s & Hr' & Hb' & E1 & E2).
    apply (ordered 2 A (fun k => turned 0 1 c s A k k) (turn 0 1 c s mat_id) (or_introl eq_refl) Hr').
    apply (diagonal_decomposes 2 A _ (turned 0 1 c s A) Hr' Hb').
    intros i j Hi Hj Hne; destruct i as [|[|i]]; destruct j as [|[|j]]; try lia; assumption.
  - destruct (eigenvector3 A S) as (mu & x & Hx & Ex).
    set (r := sqrt (sq 3 x)); assert (Hr0 : 0 < r) by (apply sqrt_lt_R0; exact Hx); assert (RR : r * r = sq 3 x) by (apply sqrt_sqrt; lra).
    set (u := fun i => x i / r).
    assert (Hu : sq 3 u = 1). { unfold sq, u; rewrite sum3; unfold sq in RR; rewrite sum3 in RR; transitivity ((x 0%nat * x 0%nat + x 1%nat * x 1%nat + x 2%nat * x 2%nat) / (r * r)); [field; lra|rewrite <- RR; field; lra]. }
    destruct (completed u Hu) as (v & w & Hr); set (Q := rows3 u v w) in *; set (B := fun i j => form 3 A (Q i) (Q j)).
    assert (Hb : in_basis 3 A Q B) by (intros i j _ _; reflexivity).
    assert (SB : forall i j, B i j = B j i).
    { intros i j; unfold B, form; rewrite upto_swap; apply upto_ext; intros k Hk; apply upto_ext; intros l Hl; rewrite (S l k); ring. }
    assert (Z0 : forall j, (0 < j < 3)%nat -> B j 0%nat = 0).
    { intros j Hj; unfold B, form; transitivity (upto 3 (fun i => mu * (Q j i * Q 0%nat i))).
      - apply upto_ext; intros i Hi; rewrite (upto_ext 3 _ (fun k => Q j i / r * (A i k * x k))); [|intros k Hk; change (Q 0%nat k) with (x k / r); field; lra].
        rewrite upto_scal, (Ex i Hi); change (Q 0%nat i) with (x i / r); field; lra.
      - rewrite upto_scal; replace (upto 3 (fun i => Q j i * Q 0%nat i)) with 0; [ring|].
        rewrite <- (along_row 3 Q 0%nat j Hr ltac:(lia) ltac:(lia) ltac:(lia)); reflexivity. }
    destruct (turned_away 3 A Q B 1 2 ltac:(lia) ltac:(lia) ltac:(lia) Hr Hb (SB _ _)) as (c & s & Hr' & Hb' & E1 & E2).
    apply (ordered 3 A (fun k => turned 1 2 c s B k k) (turn 1 2 c s Q) (or_intror eq_refl) Hr').
    apply (diagonal_decomposes 3 A _ (turned 1 2 c s B) Hr' Hb').
    intros i j Hi Hj Hne; destruct i as [|[|[|i]]]; destruct j as [|[|[|j]]]; try lia; try assumption;
      unfold turned, mat_t, turn; cbn [Nat.eqb]; rewrite ?(SB 0%nat), ?Z0 by lia; ring.
Qed.
Theorem decomposition_exists n A : (n = 2 \/ n = 3)%nat -> (forall i j, (i < n)%nat -> (j < n)%nat -> A i j = A j i) -> exists mu U, decomposed n A mu U.
Proof.
  intros Hn S; set (A' := fun i j => if andb (Nat.ltb i n) (Nat.ltb j n) then A i j else 0).
  destruct (decomposition_all n A' Hn) as (mu & U & Hr & He & Hm).
  - intros i j; unfold A'; destruct (Nat.ltb_spec i n), (Nat.ltb_spec j n); cbn [andb]; try reflexivity; apply S; assumption.
  - exists mu, U; split; [exact Hr|split; [|exact Hm]]; intros k i Hk Hi; rewrite <- (He k i Hk Hi); apply upto_ext; intros j Hj; unfold A'.
    destruct (Nat.ltb_spec i n), (Nat.ltb_spec j n); try lia; reflexivity.
Qed.
