(** * C133: eigenvalues and eigenvectors in binary64. *)
From Coq Require Import Reals Lra Psatz Permutation Sorted.
From Flocq Require Import Core IEEE754.BinarySingleNaN.
From Verif Require Import Base Num Serie Spec BaseFacts SerieFacts Functional FunctionalFacts Mathf MathFacts OrderFacts AlgebraFacts.
From Verif Require Import F64 F64Facts F64Arith F64Round LinSpec RNum Eigen EigenFacts JacobiSpec JacobiFacts Props_Functional Props_Eigen.
From Verif Require Import F64Error F64Angle F64Rot F64Jacobi F64Step F64Sweep F64Eig.
Open Scope R_scope.

Lemma fro2_young n X Y e : 0 < e -> fro2 n (fun i j => X i j + Y i j) <= (1 + e) * fro2 n X + (1 + / e) * fro2 n Y.
Proof.
  intros He.
  assert (E : fro2 n (fun i j => X i j + Y i j) = fro2 n X + 2 * ip n X Y + fro2 n Y).
  { rewrite (fro2_ext n _ (fun i j => 1 * X i j + 1 * Y i j)) by (intros i j _ _; ring); rewrite fro2_lin; ring. }
  pose proof (fro2_ge0 n (fun i j => e * X i j + (- (1)) * Y i j)) as P; rewrite fro2_lin in P.
  assert (I : 2 * ip n X Y <= e * fro2 n X + / e * fro2 n Y).
  { apply (Rmult_le_reg_l e); [exact He|]; replace (e * (e * fro2 n X + / e * fro2 n Y)) with (e * e * fro2 n X + fro2 n Y) by (field; lra); lra. }
  rewrite E; lra.
Qed.
Lemma upto_abs n f c : (forall i, (i < n)%nat -> Rabs (f i) <= c) -> Rabs (upto n f) <= INR n * c.
Proof.
  intros H; induction n as [|n IH]; [unfold upto; cbn; rewrite Rabs_R0; lra|].
  rewrite upto_S, S_INR; apply Rle_trans with (1 := Rabs_triang _ _); pose proof (H n ltac:(lia)).
  assert (Rabs (upto n f) <= INR n * c) by (apply IH; intros; apply H; lia); lra.
Qed.

Section Result.
  Variables (n : nat) (A V D Q B : Mat) (M : R).
  Hypothesis Hn : (n = 2 \/ n = 3)%nat.
  Hypothesis HM : 0 <= M.
  Hypothesis HA : forall i j, (i < n)%nat -> (j < n)%nat -> Rabs (A i j) <= M.
  Hypothesis Hb : in_basis n A Q B.
  Hypothesis Or : orthonormal_rows n Q.
  Hypothesis Oc : orthonormal_cols n Q.
  Hypothesis FB : fro2 n B <= (3 * M) * (3 * M).
  Hypothesis EV : fro2 n (minus V Q) <= (2 / 1000000000000) * (2 / 1000000000000).
  Hypothesis EA : fro2 n (minus D B) <= (12 / 1000000000000 * M) * (12 / 1000000000000 * M).
  Hypothesis SD : forall i j, (i < n)%nat -> (j < n)%nat -> D i j = D j i.

  Let e : R := 2 / 1000000000000.
  Let f : R := 12 / 1000000000000 * M.
  Let N3 : 0 <= INR n <= 3.
  Proof. destruct Hn as [-> | ->]; cbn; lra. Qed.
  Lemma near_V i j : (i < n)%nat -> (j < n)%nat -> Rabs (V i j - Q i j) <= e.
  Proof. intros Hi Hj; apply (fro2_entry n (minus V Q)); try assumption; unfold e; lra. Qed.
  Lemma near_D i j : (i < n)%nat -> (j < n)%nat -> Rabs (D i j - B i j) <= f.
  Proof. intros Hi Hj; apply (fro2_entry n (minus D B)); try assumption; unfold f; lra. Qed.

  Lemma near_orthonormal i j : (i < n)%nat -> (j < n)%nat -> Rabs (mat_mul n V (mat_t V) i j - mat_id i j) <= / 10 ^ 10.
  Proof.
    intros Hi Hj; rewrite <- (Or i j Hi Hj); unfold mat_mul, mat_t.
    replace (upto n (fun k => V i k * V j k) - upto n (fun k => Q i k * Q j k)) with (upto n (fun k => 1 * (V i k * V j k) + (- (1)) * (Q i k * Q j k))) by (rewrite upto_lin; ring).
    apply Rle_trans with (INR n * (10 / 1000000000000)); [|lra]; apply upto_abs; intros k Hk.
    pose proof (near_V i k Hi Hk) as E1; pose proof (near_V j k Hj Hk) as E2; pose proof (rows_entry n Q i k Or Hi Hk) as Q1; pose proof (rows_entry n Q j k Or Hj Hk) as Q2.
    pose proof (prod_le _ _ _ _ Q1 E2) as P1; pose proof (prod_le _ _ _ _ E1 Q2) as P2; pose proof (prod_le _ _ _ _ E1 E2) as P3; unfold e in *.
    replace (1 * (V i k * V j k) + - (1) * (Q i k * Q j k)) with (Q i k * (V j k - Q j k) + (V i k - Q i k) * Q j k + (V i k - Q i k) * (V j k - Q j k)) by ring.
    apply abs_le in P1, P2, P3; apply abs_le; lra.
  Qed.

  Lemma near_residual : residual n A (fun k => D k k) V <= 22 / 10 ^ 6 * off n A + M * M / 10 ^ 18 + 21 / 10 * (off n D - 10001 / 1000000000 * off n A).
  Proof.
    set (X := fun k i => upto n (fun j => A i j * V k j) - D k k * V k i).
    set (Y := fun k i => upto n (fun j => A i j * Q k j) - B k k * Q k i).
    change (residual n A (fun k => D k k) V) with (fro2 n X).
    assert (EY : fro2 n Y = fro2 n (fun k j => B j k - B k k * mat_id j k)) by exact (residual_basis n A Q B Or Oc Hb).
    assert (HW : fro2 n (minus X Y) <= (INR n * (36 / 1000000000000 * M)) * (INR n * (36 / 1000000000000 * M))).
    { apply fro2_bound; [lra|]; intros k i Hk Hi; unfold minus, X, Y.
      replace (upto n (fun j => A i j * V k j) - D k k * V k i - (upto n (fun j => A i j * Q k j) - B k k * Q k i))
        with (upto n (fun j => 1 * (A i j * V k j) + (- (1)) * (A i j * Q k j)) - B k k * (V k i - Q k i) - (D k k - B k k) * V k i) by (rewrite upto_lin; ring).
      assert (S1 : Rabs (upto n (fun j => 1 * (A i j * V k j) + - (1) * (A i j * Q k j))) <= INR n * (M * e)).
      { apply upto_abs; intros j Hj; replace (1 * (A i j * V k j) + - (1) * (A i j * Q k j)) with (A i j * (V k j - Q k j)) by ring.
        apply prod_le; [apply HA; assumption|apply near_V; assumption]. }
      pose proof (near_V k i Hk Hi) as E1; pose proof (near_D k k Hk Hk) as E2; pose proof (fro2_entry _ _ k k _ FB ltac:(lra) Hk Hk) as E3.
      pose proof (rows_entry n Q k i Or Hk Hi) as E4.
      assert (E5 : Rabs (V k i) <= 101 / 100) by (unfold e in E1; apply abs_le in E1, E4; apply abs_le; lra).
      pose proof (prod_le _ _ _ _ E3 E1) as P1; pose proof (prod_le _ _ _ _ E2 E5) as P2.
      assert (S2 : INR n * (M * e) <= 3 * (M * e)) by (apply Rmult_le_compat_r; [apply Rmult_le_pos; unfold e; lra|lra]).
      unfold e, f in *; apply abs_le in S1, P1, P2; apply abs_le; lra. }
    set (Za := fun k j => D j k - D k k * mat_id j k : R).
    assert (EZ : fro2 n Za = 2 * off n D) by exact (residual_off n D Hn SD).
    assert (HZ : fro2 n (minus (fun k j => B j k - B k k * mat_id j k) Za) <= (INR n * f) * (INR n * f)).
    { apply fro2_bound; [unfold f; lra|]; intros k j Hk Hj; unfold minus, Za, mat_id; destruct (Nat.eqb_spec j k) as [->|_].
      - replace (B k k - B k k * 1 - (D k k - D k k * 1)) with 0 by ring; rewrite Rabs_R0; unfold f; lra.
      - replace (B j k - B k k * 0 - (D j k - D k k * 0)) with (- (D j k - B j k)) by ring; rewrite Rabs_Ropp; apply near_D; assumption. }
    pose proof (fro2_young n Za (minus (fun k j => B j k - B k k * mat_id j k) Za) (/ 50) ltac:(lra)) as Y1.
    rewrite (fro2_ext n _ (fun k j => B j k - B k k * mat_id j k)) in Y1 by (intros i j _ _; unfold minus; ring); rewrite <- EY, EZ in Y1.
    pose proof (fro2_young n Y (minus X Y) (/ 50) ltac:(lra)) as Y2.
    rewrite (fro2_ext n _ X) in Y2 by (intros i j _ _; unfold minus; ring).
    assert (W1 : (INR n * (36 / 1000000000000 * M)) * (INR n * (36 / 1000000000000 * M)) <= (3 * (36 / 1000000000000 * M)) * (3 * (36 / 1000000000000 * M)))
      by (assert (0 <= INR n * (36 / 1000000000000 * M)) by (apply Rmult_le_pos; lra); apply Rmult_le_compat; try assumption; apply Rmult_le_compat_r; lra).
    assert (W2 : (INR n * f) * (INR n * f) <= (3 * f) * (3 * f))
      by (unfold f; assert (0 <= INR n * (12 / 1000000000000 * M)) by (apply Rmult_le_pos; lra); apply Rmult_le_compat; try assumption; apply Rmult_le_compat_r; lra).
    replace (/ / 50) with 50 in * by field; pose proof (sq_ge0 M) as MM; pose proof (off_pos n A); pose proof (off_pos n D); unfold f in *.
    replace (10 ^ 6) with 1000000 by ring; replace (10 ^ 18) with 1000000000000000000 by ring; lra.
  Qed.

  Lemma near_trace : Rabs (trace n D - trace n A) <= / 10 ^ 10 * M.
  Proof.
    rewrite <- (trace_basis n A Q B Oc Hb); unfold trace.
    replace (upto n (fun i => D i i) - upto n (fun i => B i i)) with (upto n (fun i => 1 * D i i + (- (1)) * B i i)) by (rewrite upto_lin; ring).
    apply Rle_trans with (INR n * f).
    - apply upto_abs; intros i Hi; replace (1 * D i i + - (1) * B i i) with (D i i - B i i) by ring; apply near_D; assumption.
    - apply Rle_trans with (3 * f); [apply Rmult_le_compat_r; unfold f; lra|unfold f; lra].
  Qed.
End Result.

Lemma map_rows_at n (v : list F64) p : map B2R (concat (rows_at n v p)) = concat (rows_at n (map B2R v) p).
Proof. unfold rows_at; rewrite concat_map, map_map; f_equal; apply map_ext; intros k; rewrite skipn_map, firstn_map; reflexivity. Qed.
Lemma loaded_map n (mat : list F64) : map B2R (loaded n mat) = loaded n (map B2R mat).
Proof. unfold loaded; destruct (Nat.eqb n 2); [reflexivity|]; destruct mat as [|? [|? [|? [|? [|? [|? [|? ?]]]]]]]; reflexivity. Qed.
Lemma loaded_finites n (mat : list F64) : (n = 2 \/ n = 3)%nat -> len mat = sym_size n -> finites mat -> finites (loaded n mat).
Proof.
  intros [-> | ->] L F; [exact F|]; destruct (len6 mat L) as (? & ? & ? & ? & ? & ? & ->); unfold finites in *.
  rewrite !Forall_cons_iff in F; destruct F as (F0 & F1 & F2 & F3 & F4 & F5 & _); cbn [loaded Nat.eqb]; all_finite.
Qed.
Lemma diagonal_F n (a : list F64) diag : (n = 2 \/ n = 3)%nat -> len a = sym_size n -> diagonal (Z.of_nat n) a = Ok diag ->
  (forall k, (k < n)%nat -> nth k (map B2R diag) 0%R = colpk (map B2R a) k k) /\ (finites a -> finites diag).
Proof.
  intros [-> | ->] L E.
  - destruct (len3 a L) as (? & ? & ? & ->); change (Ok [x; x1] = Ok diag) in E; injection E as <-; split; [intros k Hk; destruct k as [|[|?]]; try lia; reflexivity|].
    unfold finites; rewrite !Forall_cons_iff; tauto.
  - destruct (len6 a L) as (? & ? & ? & ? & ? & ? & ->); change (Ok [x; x1; x4] = Ok diag) in E; injection E as <-; split; [intros k Hk; destruct k as [|[|[|?]]]; try lia; reflexivity|].
    unfold finites; rewrite !Forall_cons_iff; tauto.
Qed.
Lemma moderate_ext n A A' M : mat_eq n A A' -> moderate n A M -> moderate n A' M.
Proof.
  intros E (H1 & H2 & H3); split; [exact H1|]; split; intros i j Hi Hj; rewrite <- E by assumption; [apply H2; assumption|intros Hne; apply H3; assumption].
Qed.
Lemma finites_at n (v : list F64) p : finites v -> finites (concat (rows_at n v p)).
Proof.
  intros F; unfold finites in *; rewrite Forall_forall in *; intros x Hx; apply in_concat in Hx; destruct Hx as (row & Hr & Hx).
  unfold rows_at in Hr; apply in_map_iff in Hr; destruct Hr as (k & <- & _); apply F.
  rewrite <- (firstn_skipn (k * n) v); apply in_or_app; right; rewrite <- (firstn_skipn n (skipn (k * n) v)); apply in_or_app; left; exact Hx.
Qed.

(** what is claimed of the values [e] and the vectors [w] of one matrix *)
Definition eigenpairs (n : nat) (A : Mat) (M : R) (e w : list F64) : Prop :=
  len e = Z.of_nat n /\ len w = Z.of_nat (n * n) /\ Forall (fun x => is_finite x = true) e /\ Forall (fun x => is_finite x = true) w /\
  (forall i j, (i < n)%nat -> (j < n)%nat -> Rabs (mat_mul n (full n (map B2R w)) (mat_t (full n (map B2R w))) i j - mat_id i j) <= / 10 ^ 10) /\
  residual n A (fun k => nth k (map B2R e) 0) (full n (map B2R w)) <= 22 / 10 ^ 6 * off n A + M * M / 10 ^ 18 /\
  Rabs (LinSpec.total (map B2R e) - trace n A) <= / 10 ^ 10 * M.

Lemma item_F L n (mat : list F64) M : accurate L -> (n = 2 \/ n = 3)%nat -> len mat = sym_size n -> finites mat -> moderate n (symm n (map B2R mat)) M ->
  exists e w, @eigen_item F64 (f64_num L) n mat = Ok (e, w) /\ eigenpairs n (symm n (map B2R mat)) M e w.
Proof.
  intros Acc Hn Lm Fm Hm; pose proof (loaded_size n mat Hn Lm) as L'; pose proof (loaded_finites n mat Hn Lm Fm) as Fl.
  assert (LR : len (map B2R mat) = sym_size n) by (unfold len; rewrite map_length; exact Lm).
  pose proof (loaded_symm n (map B2R mat) Hn LR) as Es; rewrite <- loaded_map in Es.
  destruct (@symmetric_ok F64 (f64_num L) n (loaded n mat) Hn L') as (a & v & thr & d & diag & ev & p & Ej & Sh & Ed & Ld & So & Le & E & Lw).
  assert (Hm' : moderate n (colpk (map B2R (loaded n mat))) M) by (apply (moderate_ext n (symm n (map B2R mat))); [intros i j Hi Hj; symmetry; apply Es; assumption|exact Hm]).
  destruct (jacobi_F L n (loaded n mat) M Acc Hn L' Fl Hm') as (a' & v' & thr' & d' & Ej' & Fa & Fv & (Q & B & Hb & Or & Oc & FB & EV & EA) & Ho).
  rewrite Ej in Ej'; injection Ej' as <- <- _ _.
  destruct So as (P & _ & Sv); destruct Sh as [La Lv]; cbn [fst snd] in La, Lv.
  destruct (diagonal_F n a diag Hn La Ed) as [ED Fd]; specialize (Fd Fa).
  assert (LvR : len (map B2R v) = (Z.of_nat n * Z.of_nat n)%Z) by (unfold len; rewrite map_length; exact Lv).
  pose proof (rows_at_full n (map B2R v) p Hn LvR P) as EVp; rewrite <- map_rows_at in EVp.
  assert (Lp : length p = n) by (rewrite (Permutation_length P), seq_length; reflexivity).
  assert (Ne : forall q, (q < n)%nat -> nth_error ev q = nth_error diag (nth q p 0%nat)).
  { intros q Hq; assert (N : nth_error (map Some ev) q = nth_error (map (nth_error diag) p) q) by (rewrite Sv; reflexivity).
    rewrite !nth_error_map in N; rewrite (nth_error_nth' p 0%nat) in N by lia; cbn [option_map] in N.
    destruct (nth_error ev q) as [x|]; cbn [option_map] in N; [injection N as N; exact N|discriminate]. }
  assert (Ee : forall q, (q < n)%nat -> nth q (map B2R ev) 0 = colpk (map B2R a) (nth q p 0%nat) (nth q p 0%nat)).
  { intros q Hq; rewrite <- ED by (apply perm_lt; assumption).
    pose proof (Ne q Hq) as N; pose proof (perm_lt n p q P Hq) as Hp.
    assert (G : forall (l : list F64) k, nth k (map B2R l) 0 = match nth_error l k with Some x => B2R x | None => 0 end).
    { induction l as [|x l IH]; intros [|k]; cbn; try reflexivity; apply IH. }
    rewrite !G, N; reflexivity. }
  exists ev, (concat (rows_at n v p)); split; [exact E|]; pose proof Hm' as (HM & HA & _); pose proof small_facts as (_ & _ & _ & _ & S0 & _).
  assert (SD : forall i j, (i < n)%nat -> (j < n)%nat -> colpk (map B2R a) i j = colpk (map B2R a) j i).
  { intros i j _ _; unfold colpk; rewrite (Nat.max_comm i j), (Nat.min_comm i j); reflexivity. }
  split; [unfold len; lia|]; split; [unfold len; lia|]; split; [|split; [apply finites_at; exact Fv|split; [|split]]].
  - apply Forall_forall; intros x Hx; apply In_nth_error in Hx; destruct Hx as (q & Hq).
    assert (Hl : (q < n)%nat) by (rewrite <- Le; apply nth_error_Some; intros G; assert (Some x = None) by (transitivity (nth_error ev q); [symmetry; exact Hq|exact G]); discriminate).
    assert (Hq' : nth_error diag (nth q p 0%nat) = Some x) by (rewrite <- (Ne q Hl); exact Hq); apply nth_error_In in Hq'; unfold finites in Fd; rewrite Forall_forall in Fd; apply Fd, Hq'.
  - intros i j Hi Hj.
    replace (mat_mul n (full n (map B2R (concat (rows_at n v p)))) (mat_t (full n (map B2R (concat (rows_at n v p))))) i j)
      with (mat_mul n (full n (map B2R v)) (mat_t (full n (map B2R v))) (nth i p 0%nat) (nth j p 0%nat)) by (unfold mat_mul, mat_t; apply upto_ext; intros q Hq; rewrite !EVp by assumption; reflexivity).
    replace (mat_id i j) with (mat_id (nth i p 0%nat) (nth j p 0%nat)).
    + apply (near_orthonormal n _ (full n (map B2R v)) (colpk (map B2R a)) Q B M Hn HA Hb Or Oc FB EV EA SD); apply perm_lt; assumption.
    + unfold mat_id; destruct (Nat.eqb_spec i j) as [->|Hne]; [rewrite Nat.eqb_refl; reflexivity|].
      destruct (Nat.eqb_spec (nth i p 0%nat) (nth j p 0%nat)) as [Eq|]; [exfalso; apply Hne, (perm_inj n p); assumption|reflexivity].
  - rewrite (residual_ext n (symm n (map B2R mat)) (colpk (map B2R (loaded n mat))) _ (fun q => colpk (map B2R a) (nth q p 0%nat) (nth q p 0%nat)) _ (fun q => full n (map B2R v) (nth q p 0%nat))).
    + unfold residual.
      rewrite (upto_perm n p (fun q => upto n (fun i => ((upto n (fun j => colpk (map B2R (loaded n mat)) i j * full n (map B2R v) q j) - colpk (map B2R a) q q * full n (map B2R v) q i) * (upto n (fun j => colpk (map B2R (loaded n mat)) i j * full n (map B2R v) q j) - colpk (map B2R a) q q * full n (map B2R v) q i))%R)) P).
      fold (residual n (colpk (map B2R (loaded n mat))) (fun q => colpk (map B2R a) q q) (full n (map B2R v))).
      pose proof (near_residual n _ (full n (map B2R v)) (colpk (map B2R a)) Q B M Hn ltac:(lra) HA Hb Or Oc FB EV EA SD) as NR.
      rewrite <- (off_ext n _ _ Es); lra.
    + intros i j Hi Hj; symmetry; apply Es; assumption.
    + exact Ee.
    + intros q i Hq Hi; apply EVp; assumption.
  - rewrite <- (trace_ext n _ _ Es).
    replace (LinSpec.total (map B2R ev)) with (trace n (colpk (map B2R a))); [apply (near_trace n _ (full n (map B2R v)) (colpk (map B2R a)) Q B M Hn ltac:(lra) HA Hb Or Oc FB EV EA SD)|].
    unfold trace; rewrite <- (upto_perm n p (fun q => colpk (map B2R a) q q) P); unfold upto; f_equal.
    apply (nth_ext _ _ 0%R 0%R); [rewrite !map_length, seq_length; symmetry; exact Le|]; intros q Hq; rewrite map_length, seq_length in Hq; rewrite Ee by exact Hq.
    rewrite (nth_indep (map _ _) 0%R (colpk (map B2R a) (nth 0%nat p 0%nat) (nth 0%nat p 0%nat))) by (rewrite map_length, seq_length; exact Hq).
    rewrite (map_nth (fun q => colpk (map B2R a) (nth q p 0%nat) (nth q p 0%nat))), seq_nth by exact Hq; reflexivity.
Qed.

(** ** C133 *)
Theorem C133_eigenpairs_partial :
  forall L (s : Serie F64) n rows,
  accurate L -> (n = 2 \/ n = 3)%nat -> repr s (sym_size n) rows -> dimension s = Z.of_nat n -> rows <> [] ->
  exists pairs : list (list F64 * list F64),
    @eigenValues F64 (f64_num L) s = Ok (mk (Z.of_nat n) (map fst pairs) 3%Z) /\ @eigenVectors F64 (f64_num L) s = Ok (mk (Z.of_nat (n * n)) (map snd pairs) 3%Z) /\
    Forall2 (fun mat ew => forall M, Forall (fun x => is_finite x = true) mat -> moderate n (symm n (map B2R mat)) M ->
      eigenpairs n (symm n (map B2R mat)) M (fst ew) (snd ew)) rows pairs.
Proof.
  intros L s n rows Acc Hn Hs Hd Hne; pose proof (repr_rows _ _ _ Hs) as Rr.
  exists (map (fun r => (@values_of F64 (f64_num L) n r, @vectors_of F64 (f64_num L) n r)) rows); rewrite !map_map; cbn [fst snd].
  split; [apply eigenValues_ok; assumption|split; [apply eigenVectors_ok; assumption|]].
  clear Hs Hd Hne; induction Rr as [|r rows Lr Rr IH]; [constructor|]; cbn [map]; constructor; [|exact IH]; cbn [fst snd].
  intros M Fm Hm; destruct (item_F L n r M Acc Hn Lr Fm Hm) as (e & w & E & H); unfold vectors_of, values_of; rewrite E; exact H.
Qed.
Print Assumptions C133_eigenpairs_partial.

(** the library with correctly rounded functions, and the matrix with rows 2 1 0, 1 2 1, 0 1 2 *)
Example C133_example :
  accurate libm_nearest /\
  let mat := [#2; #1; #0; #2; #1; #2] in
  repr (mk 6 [mat] 3) (sym_size 3) [mat] /\ Forall (fun x : F64 => is_finite x = true) mat /\ moderate 3 (symm 3 (map B2R mat)) 2 /\ off 3 (symm 3 (map B2R mat)) = 2.
Proof.
  split; [exact libm_nearest_ok|]; cbv zeta.
  destruct (f64_of_Z_correct 2 ltac:(lia)) as (E2 & F2 & _); destruct (f64_of_Z_correct 1 ltac:(lia)) as (E1 & F1 & _); destruct (f64_of_Z_correct 0 ltac:(lia)) as (E0 & F0 & _).
  split; [change (sym_size 3) with 6%Z; repr_ex|]; split; [all_finite|].
  assert (Em : map B2R [#2; #1; #0; #2; #1; #2] = [2; 1; 0; 2; 1; 2]) by (cbn [map]; rewrite E0, E1, E2; reflexivity).
  rewrite Em; pose proof small_facts as (_ & _ & _ & _ & S0 & S1 & _); split.
  - split; [split; [lra|unfold large; apply Rle_trans with (bpow radix2 1); [change (bpow radix2 1) with 2; lra|apply bpow_le; lia]]|].
    assert (A0 : Rabs 0 = 0) by apply Rabs_R0; assert (A1 : Rabs 1 = 1) by (apply Rabs_pos_eq; lra); assert (A2 : Rabs 2 = 2) by (apply Rabs_pos_eq; lra).
    split.
    + mat_cases3; cbv [symm sym3 Nat.eqb nth Nat.mul Nat.add]; lra.
    + mat_cases3; intros Hne; try lia; cbv [symm sym3 Nat.eqb nth Nat.mul Nat.add]; rewrite ?A1; first [left; reflexivity|right; lra].
  - rewrite off3; cbv [symm sym3 Nat.eqb nth Nat.mul Nat.add]; ring.
Qed.

(** *** Entries that are too large or too small: the diagonal is returned as it is *)
Definition pinf : F64 := B754_infinity false.
Lemma square_overflow (b : F64) : is_finite b = true -> bpow radix2 512 <= Rabs (B2R b) -> f64_mul b b = pinf.
Proof.
  intros F H; pose proof (Bmult_correct 53 1024 F64_prec F64_emax mode_NE b b) as C.
  assert (G : bpow radix2 1024 <= Rabs (rnd (B2R b * B2R b))).
  { apply abs_round_ge_generic; [exact fexp_valid|apply valid_rnd_N|apply generic_format_bpow; unfold SpecFloat.fexp, SpecFloat.emin; lia|].
    change 1024%Z with (512 + 512)%Z; rewrite bpow_plus, Rabs_mult; apply Rmult_le_compat; try apply bpow_ge_0; assumption. }
  unfold round_mode in C; rewrite Rlt_bool_false in C by exact G.
  rewrite xorb_nilpotent in C; unfold f64_mul, pinf; destruct (Bmult mode_NE b b) as [|[]| |]; cbn in C; try discriminate C; reflexivity.
Qed.
Lemma square_underflow (b : F64) : is_finite b = true -> Rabs (B2R b) <= bpow radix2 (-538) -> is_finite (f64_mul b b) = true /\ B2R (f64_mul b b) = 0.
Proof.
  intros F H.
  assert (P : 0 <= B2R b * B2R b <= bpow radix2 (-1076)).
  { split; [apply sq_ge0|]; change (-1076)%Z with (-538 + -538)%Z; rewrite bpow_plus; apply Rle_trans with (1 := Rle_abs _); rewrite Rabs_mult; apply Rmult_le_compat; try apply Rabs_pos; assumption. }
  assert (Z0 : rnd (B2R b * B2R b) = 0).
  { destruct (Req_dec (B2R b * B2R b) 0) as [->|Hne]; [apply rnd_0|].
    apply (round_N_small_pos radix2 (SpecFloat.fexp 53 1024) _ (B2R b * B2R b) (mag radix2 (B2R b * B2R b))).
    - destruct (mag radix2 (B2R b * B2R b)) as (ex & Hex); cbn [mag_val]; specialize (Hex Hne); rewrite Rabs_pos_eq in Hex by lra; exact Hex.
    - assert (mag radix2 (B2R b * B2R b) <= -1075)%Z.
      { apply mag_le_bpow; [exact Hne|]; rewrite Rabs_pos_eq by lra; apply Rle_lt_trans with (1 := proj2 P), bpow_lt; lia. }
      unfold SpecFloat.fexp, SpecFloat.emin; lia. }
  destruct (mul_ok b b F F) as [E Fm]; [unfold in_range; rewrite Z0, Rabs_R0; apply bpow_gt_0|]; split; [exact Fm|rewrite E; exact Z0].
Qed.

Lemma item_diagonal L (x b y : F64) : is_finite b = true -> bpow radix2 512 <= Rabs (B2R b) \/ Rabs (B2R b) <= bpow radix2 (-538) ->
  @eigen_item F64 (f64_num L) 2 [x; b; y] = Ok (if Bltb x y then ([y; x], [#0; #1; #1; #0]) else ([x; y], [#1; #0; #0; #1])).
Proof.
  intros F H.
  assert (J : exists thr, @jacobi F64 (f64_num L) 2 [x; b; y] = Ok ((([x; b; y], [#1; #0; #0; #1]), thr), 0%Z)).
  { exists (f64_add #0 (f64_mul b b)); rewrite jacobi2; cbn [n_add n_mul n_eqb n_of_Z f64_num]; cbv zeta.
    change (@identity F64 (f64_num L) 2) with [#1; #0; #0; #1].
    destruct H as [H|H].
    - rewrite (square_overflow b F H).
      assert (I : f64_add #0 pinf = pinf) by (destruct zero_B2R as [_ Fz]; unfold f64_add, pinf; destruct #0 as [s|s| |s m e p]; try discriminate Fz; reflexivity).
      rewrite I; replace (Beqb pinf #0) with false by (destruct zero_B2R as [_ Fz]; unfold pinf; destruct #0 as [s|s| |s m e p]; try discriminate Fz; reflexivity); cbn [negb].
      assert (Ie : f64_mul pinf (@eps F64 (f64_num L)) = pinf).
      { destruct (eps_near L) as [Fe Ne]; assert (Pe : 0 < B2R (@eps F64 (f64_num L))) by (apply abs_le in Ne; unfold uu in Ne; lra).
        unfold f64_mul, pinf; destruct (@eps F64 (f64_num L)) as [s|s| |s m e p]; try discriminate Fe; [cbn in Pe; lra|].
        destruct s; [exfalso; pose proof (F2R_lt_0 radix2 (Float radix2 (Z.neg m) e) ltac:(cbn; lia)) as G; cbn in Pe, G; lra|reflexivity]. }
      rewrite Ie; reflexivity.
    - destruct zero_B2R as [Z0 Fz]; destruct (zero_add #0 (f64_mul b b) (conj Fz Z0) (square_underflow b F H)) as [Fn En].
      rewrite (Beqb_correct _ _ _ _ Fn Fz), En, Z0, Req_bool_true by reflexivity; reflexivity. }
  destruct J as (thr & J); unfold eigen_item; change (Z.of_nat 2) with 2%Z; change (loaded 2 [x; b; y]) with [x; b; y]; unfold symmetricEigen; rewrite J; cbn [obind].
  change (mapO (fun i => rd [x; b; y] (i + i * (i + 1) / 2)) (iota 2)) with (Ok [x; y] : outcome (list F64)); cbn [obind]; rewrite sort2_ok; cbn [n_ltb f64_num].
  destruct (Bltb x y); reflexivity.
Qed.

Theorem C133_diagonal_returned :
  forall L (x b y : F64) s,
  is_finite b = true -> bpow radix2 512 <= Rabs (B2R b) \/ Rabs (B2R b) <= bpow radix2 (-538) -> repr s 3 [[x; b; y]] -> dimension s = 2%Z ->
  @eigenValues F64 (f64_num L) s = Ok (mk 2 [if Bltb x y then [y; x] else [x; y]] 3) /\
  @eigenVectors F64 (f64_num L) s = Ok (mk 4 [if Bltb x y then [#0; #1; #1; #0] else [#1; #0; #0; #1]] 3).
Proof.
  intros L x b y s F H Hs Hd.
  rewrite (@eigenValues_ok F64 (f64_num L) 2 s [[x; b; y]] (or_introl eq_refl) Hs Hd ltac:(discriminate)), (@eigenVectors_ok F64 (f64_num L) 2 s [[x; b; y]] (or_introl eq_refl) Hs Hd ltac:(discriminate)).
  cbn [map]; unfold values_of, vectors_of; rewrite (item_diagonal L x b y F H); destruct (Bltb x y); split; reflexivity.
Qed.
Print Assumptions C133_diagonal_returned.

(** the claim for all finite entries *)
Definition C133_full : Prop :=
  forall L (s : Serie F64) n rows,
  accurate L -> (n = 2 \/ n = 3)%nat -> repr s (sym_size n) rows -> dimension s = Z.of_nat n -> rows <> [] ->
  exists pairs : list (list F64 * list F64),
    @eigenValues F64 (f64_num L) s = Ok (mk (Z.of_nat n) (map fst pairs) 3%Z) /\ @eigenVectors F64 (f64_num L) s = Ok (mk (Z.of_nat (n * n)) (map snd pairs) 3%Z) /\
    Forall2 (fun mat ew => forall M, Forall (fun x => is_finite x = true) mat -> (forall i j, (i < n)%nat -> (j < n)%nat -> Rabs (symm n (map B2R mat) i j) <= M) ->
      eigenpairs n (symm n (map B2R mat)) M (fst ew) (snd ew)) rows pairs.

(** rows 0 b and b 0: the values are 0 and 0 in place of b and -b *)
Lemma zero_diagonal_residual b e w : e = [0; 0] -> w = [1; 0; 0; 1] -> residual 2 (symm 2 [0; b; 0]) (fun k => nth k e 0) (full 2 w) = 2 * (b * b).
Proof. intros -> ->; unfold residual, upto, LinSpec.total, symm, sym2, full; cbn; ring. Qed.
Lemma wrong_diagonal (b : F64) : is_finite b = true -> bpow radix2 512 <= Rabs (B2R b) \/ Rabs (B2R b) <= bpow radix2 (-538) -> B2R b <> 0 -> ~ C133_full.
Proof.
  intros F H Hne C; destruct (f64_of_Z_correct 0 ltac:(lia)) as (Z0 & Fz & _); destruct (f64_of_Z_correct 1 ltac:(lia)) as (E1 & F1 & _).
  assert (Hs : repr (mk 3 [[#0; b; #0]] 2) 3 [[#0; b; #0]]) by repr_ex.
  destruct (C libm_nearest (mk 3 [[#0; b; #0]] 2) 2%nat [[#0; b; #0]] libm_nearest_ok (or_introl eq_refl) Hs eq_refl ltac:(discriminate)) as (pairs & Ev & Ew & FP).
  destruct (C133_diagonal_returned libm_nearest #0 b #0 _ F H Hs eq_refl) as [Dv Dw].
  inversion FP as [|? [e w] ? ? P0 P']; subst; inversion P'; subst; cbn [map fst snd] in *.
  assert (Lt : Bltb #0 #0 = false) by (destruct #0 as [s|s| |s m e0 p]; try discriminate Fz; [reflexivity|destruct (Bltb (B754_finite s m e0 p) (B754_finite s m e0 p)) eqn:G; [apply (lt_ok _ _ Fz Fz) in G; lra|reflexivity]]).
  rewrite Lt in Dv, Dw; rewrite Ev in Dv; rewrite Ew in Dw.
  destruct (P0 (Rabs (B2R b))) as (Le & Lw & _ & _ & _ & R0 & _).
  - repeat (apply Forall_cons; [assumption || reflexivity|]); apply Forall_nil.
  - change (B2R (B754_zero false)) with 0; pose proof (Rabs_pos (B2R b)) as Pb; mat_cases2; cbv [symm sym2 Nat.eqb nth Nat.mul Nat.add]; rewrite ?Rabs_R0; lra.
  - assert (Ee : e = [#0; #0]) by (injection Dv as X; destruct (len2 e Le) as (e0 & e1 & ->); cbn in X; injection X as -> ->; reflexivity).
    assert (Ww : w = [#1; #0; #0; #1]) by (injection Dw as X; destruct (len4 w Lw) as (w0 & w1 & w2 & w3 & ->); cbn in X; injection X as -> -> -> ->; reflexivity).
    subst e w; cbn [map] in R0; change (B2R (B754_zero false)) with 0 in R0; rewrite Z0, E1 in R0; rewrite (zero_diagonal_residual (B2R b) _ _ eq_refl eq_refl), off2 in R0.
    change (symm 2 [0; B2R b; 0] 0%nat 1%nat) with (B2R b) in R0; rewrite <- Rabs_mult, (Rabs_pos_eq (B2R b * B2R b)) in R0 by apply sq_ge0.
    assert (0 < B2R b * B2R b) by (pose proof (Rsqr_pos_lt _ Hne) as G; exact G).
    replace (10 ^ 6) with 1000000 in R0 by ring; replace (10 ^ 18) with 1000000000000000000 in R0 by ring; lra.
Qed.
Theorem C133_large_refuted : exists b : F64, is_finite b = true /\ B2R b = bpow radix2 512 /\ ~ C133_full.
Proof.
  exists (f64_of_R (bpow radix2 512)).
  destruct (f64_of_R_ok (bpow radix2 512)) as [E F]; [rewrite Rabs_pos_eq by apply bpow_ge_0; unfold hi; apply bpow_le; lia|].
  rewrite rnd_fmt in E by (apply generic_format_bpow; unfold SpecFloat.fexp, SpecFloat.emin; lia).
  split; [exact F|]; split; [exact E|]; apply (wrong_diagonal _ F); rewrite E; [left; apply Rle_abs|apply Rgt_not_eq, bpow_gt_0].
Qed.
Print Assumptions C133_large_refuted.
Theorem C133_small_refuted : exists b : F64, is_finite b = true /\ B2R b = bpow radix2 (-538) /\ ~ C133_full.
Proof.
  exists (f64_of_R (bpow radix2 (-538))).
  destruct (f64_of_R_ok (bpow radix2 (-538))) as [E F]; [rewrite Rabs_pos_eq by apply bpow_ge_0; unfold hi; apply bpow_le; lia|].
  rewrite rnd_fmt in E by (apply generic_format_bpow; unfold SpecFloat.fexp, SpecFloat.emin; lia).
  split; [exact F|]; split; [exact E|]; apply (wrong_diagonal _ F); rewrite E; [right; rewrite Rabs_pos_eq by apply bpow_ge_0; lra|apply Rgt_not_eq, bpow_gt_0].
Qed.
Print Assumptions C133_small_refuted.
