(** * C77, C78, C79: det and inv. *)
From Verif Require Import Base Num Serie Spec BaseFacts SerieFacts Functional FunctionalFacts Utils Mathf MathFacts MinMaxFacts Views Algebra AlgebraFacts.
From Verif Require Import RNum LinSpec Props_Functional Props_Algebra.
From Coq Require Import Reals Lra.
From Flocq Require Import Core.
Open Scope Z_scope.

(** ** C77 *)
Lemma sqrt_sq (n : Z) : 0 <= n -> sqrt (IZR (n * n)) = IZR n.
Proof. intros H; rewrite mult_IZR; apply sqrt_square; apply (IZR_le 0); exact H. Qed.
Lemma squaredMatrix_R n (v : list R) : 0 <= n < two32 -> len v = n * n ->
  @squaredMatrix R r_num v = Ok {| m_data := v; m_alive := true; m_m := n |}.
Proof.
  intros Hn Lv; unfold squaredMatrix, n_to_u32; cbn [n_to_Z n_sqrt n_of_Z r_num]; rewrite Lv, sqrt_sq, Ztrunc_IZR by lia.
  replace ((0 <=? n) && (n <? two32))%bool with true by (symmetry; apply andb_true_intro; split; [apply Z.leb_le|apply Z.ltb_lt]; lia).
  reflexivity.
Qed.
Ltac det_unfold := unfold determinant, upto, minor, LinSpec.total; cbn [seq map fold_right pow Nat.ltb Nat.leb].

Theorem C77_full_matrices_partial :
  forall (s : Serie R) n rows,
  (n = 2 \/ n = 3)%nat -> repr s (Z.of_nat (n * n)) rows -> dimension s = Z.of_nat n -> rows <> [] ->
  @det R r_num s = Ok (mk 1 (col (map (fun v => determinant n (full n v)) rows)) 3).
Proof.
  intros s n rows Hn Hs Hd Hne; pose proof (repr_rows _ _ _ Hs) as Rr; unfold rows_of_size in Rr; rewrite Forall_forall in Rr.
  unfold det; rewrite (isValid_repr _ _ _ Hs); replace (0 <? Z.of_nat (n * n)) with true by (destruct Hn as [-> | ->]; reflexivity); cbn [negb].
  cbv zeta.
  assert (Ei : itemSize (serie_copy s) = Z.of_nat (n * n)) by (rewrite <- (repr_itemSize _ _ _ Hs); reflexivity).
  assert (Ed : dimension (serie_copy s) = Z.of_nat n) by (rewrite <- Hd; reflexivity).
  rewrite Ei, Ed.
  unfold col; rewrite map_map.
  apply (map_rows_ok s _ rows (det_item (Z.of_nat (n * n)) (Z.of_nat n)) _ 1 Hs Hne ltac:(lia)).
  intros v Hv; specialize (Rr v Hv); split; [|reflexivity]; unfold det_item.
  destruct Hn as [-> | ->].
  - change (Z.of_nat (2 * 2)) with 4 in *; change (Z.of_nat 2) with 2 in *; cbn [Z.eqb Pos.eqb orb andb].
    replace (len v =? 3) with false by (symmetry; apply Z.eqb_neq; lia).
    rewrite (squaredMatrix_R 2 v) by (unfold two32; lia); cbn [obind].
    destruct (len4 v Rr) as (a & b & c & d & ->).
    transitivity (Ok [(a * d - b * c)%R]); [reflexivity|]; do 2 f_equal; det_unfold; unfold full; cbn; ring.
  - change (Z.of_nat (3 * 3)) with 9 in *; change (Z.of_nat 3) with 3 in *; cbn [Z.eqb Pos.eqb orb andb].
    replace (len v =? 6) with false by (symmetry; apply Z.eqb_neq; lia).
    rewrite (squaredMatrix_R 3 v) by (unfold two32; lia); cbn [obind].
    destruct (len9 v Rr) as (a & b & c & d & e & f & g & h & i & ->).
    transitivity (Ok [(a * e * i - a * f * h - b * d * i + b * f * g + c * d * h - c * e * g)%R]); [reflexivity|].
    do 2 f_equal; det_unfold; unfold full; cbn; ring.
Qed.
Print Assumptions C77_full_matrices_partial.

(** the function so computed is the determinant: normed, alternating, multiplicative, invariant under transposition *)
Theorem C77_determinant :
  forall n, (n = 2 \/ n = 3)%nat ->
  determinant n mat_id = 1%R /\
  (forall A, determinant n (mat_t A) = determinant n A) /\
  (forall A p q, (p < q < n)%nat -> determinant n (swap_rows p q A) = (- determinant n A)%R) /\
  (forall A B, determinant n (mat_mul n A B) = (determinant n A * determinant n B)%R).
Proof.
  intros n [-> | ->]; (split; [det_unfold; unfold mat_id; cbn; ring|]; split; [intros A; det_unfold; unfold mat_t; ring|]; split).
  - intros A p q Hpq; assert (p = 0 /\ q = 1)%nat as [-> ->] by lia; det_unfold; unfold swap_rows; cbn; ring.
  - intros A B; det_unfold; unfold mat_mul, upto, LinSpec.total; cbn; ring.
  - intros A p q Hpq; assert (H : (p = 0 /\ q = 1 \/ p = 0 /\ q = 2 \/ p = 1 /\ q = 2)%nat) by lia.
    destruct H as [[-> ->]|[[-> ->]|[-> ->]]]; det_unfold; unfold swap_rows; cbn; ring.
  - intros A B; det_unfold; unfold mat_mul, upto, LinSpec.total; cbn; ring.
Qed.
Print Assumptions C77_determinant.

Definition no_throw {A} (o : outcome A) : Prop := match o with Throw _ => False | _ => True end.
Lemma no_throw_bind {A B} (o : outcome A) (f : A -> outcome B) : no_throw o -> (forall x, no_throw (f x)) -> no_throw (let* x := o in f x).
Proof. destruct o; simpl; auto. Qed.
Lemma no_throw_fold {A B} (f : A -> B -> outcome A) l : (forall a x, no_throw (f a x)) -> forall a, no_throw (foldO f l a).
Proof. intros H; induction l as [|x l IH]; intros a; [exact I|]; cbn [foldO]; apply no_throw_bind; auto. Qed.
Lemma no_throw_rd {A} (l : list A) i : no_throw (rd l i).
Proof. unfold rd; destruct (_ && _)%bool; [destruct (nth_error _ _)|]; exact I. Qed.
Lemma no_throw_wr {A} (l : list A) i x : no_throw (wr l i x).
Proof. unfold wr; destruct (_ && _)%bool; exact I. Qed.
Lemma no_throw_u32 {T} {NT : Num T} (x : T) : no_throw (n_to_u32 x).
Proof. unfold n_to_u32; destruct (n_to_Z x); [destruct (_ && _)%bool|]; exact I. Qed.

Section Sym.
  Context {T : Type} {NT : Num T}.
  Lemma sym_no_throw (v : list T) : no_throw (symSquaredMatrix v).
  Proof.
    unfold symSquaredMatrix; cbv zeta; apply no_throw_bind; [apply no_throw_u32|intros m]; apply no_throw_bind; [apply no_throw_u32|intros mm].
    apply no_throw_bind; [|intros; exact I].
    apply no_throw_fold; intros w i; apply no_throw_fold; intros w' j; apply no_throw_bind.
    - unfold indexS; destruct (_ <? _); apply no_throw_u32.
    - intros p; apply no_throw_bind; [apply no_throw_rd|intros; apply no_throw_wr].
  Qed.
  Lemma sym_dangling (v : list T) (f : matrix T -> T -> outcome (list T)) i j :
    (let* m := symSquaredMatrix v in let* x := m_at m i j in f m x) = UB.
  Proof.
    pose proof (sym_no_throw v) as N; destruct (symSquaredMatrix v) as [m| |] eqn:E; [|destruct N|reflexivity]; cbn [obind].
    assert (A : m_alive m = false).
    { unfold symSquaredMatrix in E; cbv zeta in E.
      repeat match type of E with (let* _ := ?o in _) = _ => destruct o; [|discriminate|discriminate]; cbn [obind] in E end.
      injection E as <-; reflexivity. }
    unfold m_at, m_view; rewrite A; reflexivity.
  Qed.
  Lemma map_first_ub (s : Serie T) k r rows (f : list T -> outcome (list T)) :
    repr s k (r :: rows) -> f r = UB -> run (map_vv (fun r _ => lift (f r)) s) = UB.
  Proof.
    intros Hs E; unfold run, map_vv; rewrite (repr_count _ _ _ Hs).
    assert (Hg : reads (get_array s) (r :: rows)) by (eapply reads_array; exact Hs).
    rewrite (map_arr_unfold (get_array s) _ r rows tt Hg); unfold mbind at 1, lift at 1; rewrite E; reflexivity.
  Qed.
End Sym.

(** symmetric storage: whatever the numbers, the components are read from a destroyed array *)
Theorem C77_symmetric_refuted :
  forall (T : Type) (NT : Num T) (s : Serie T) r rows,
  (repr s 3 (r :: rows) /\ dimension s = 2) \/ (repr s 6 (r :: rows) /\ dimension s = 3) -> det s = UB.
Proof.
  intros T NT s r rows H.
  assert (G : forall k d, repr s k (r :: rows) -> dimension s = d -> (k = 3 /\ d = 2) \/ (k = 6 /\ d = 3) -> det s = UB).
  { clear H; intros k d Hs Hd Hk; pose proof (repr_rows _ _ _ Hs) as Rr; inversion Rr as [|? ? Lr _]; subst.
    unfold det; rewrite (isValid_repr _ _ _ Hs); replace (0 <? len r) with true by (symmetry; apply Z.ltb_lt; lia); cbn [negb]; cbv zeta.
    assert (Ei : itemSize (serie_copy s) = len r) by (rewrite <- (repr_itemSize _ _ _ Hs); reflexivity).
    change (dimension (serie_copy s)) with (dimension s); rewrite Ei.
    apply (map_first_ub s (len r) r rows (det_item (len r) (dimension s)) Hs); unfold det_item.
    destruct Hk as [[-> ->]|[-> ->]]; cbn [Z.eqb Pos.eqb orb andb].
    - apply (sym_dangling r (fun m m00 => _)).
    - apply (sym_dangling r (fun m m00 => _)). }
  destruct H as [[Hs Hd]|[Hs Hd]]; apply (G _ _ Hs Hd); lia.
Qed.
Print Assumptions C77_symmetric_refuted.

Theorem C77_refused :
  forall (T : Type) (NT : Num T) (s : Serie T) k rows,
  repr s k rows -> rows <> [] ->
  ~ ((k = 3 \/ k = 4) /\ dimension s = 2) -> ~ ((k = 6 \/ k = 9) /\ dimension s = 3) -> det s = Throw InvalidArgument.
Proof.
  intros T NT s k rows Hs Hne H2 H3; unfold det; rewrite (isValid_repr _ _ _ Hs).
  destruct (0 <? k); [|reflexivity]; cbn [negb]; cbv zeta.
  assert (Ei : itemSize (serie_copy s) = k) by (rewrite <- (repr_itemSize _ _ _ Hs); reflexivity).
  change (dimension (serie_copy s)) with (dimension s); rewrite Ei.
  assert (E : forall v, det_item k (dimension s) v = Throw InvalidArgument).
  { intros v; unfold det_item; destruct (Z.eqb_spec k 3), (Z.eqb_spec k 4), (Z.eqb_spec k 6), (Z.eqb_spec k 9), (Z.eqb_spec (dimension s) 2), (Z.eqb_spec (dimension s) 3);
      cbn [orb andb]; try reflexivity; exfalso; first [apply H2; lia|apply H3; lia]. }
  apply (map_rows_throw s k rows (det_item k (dimension s)) (fun r => r) k InvalidArgument Hs).
  - intros; right; apply E.
  - destruct rows as [|r rows]; [congruence|]; exists r; split; [left; reflexivity|apply E].
Qed.
Print Assumptions C77_refused.

Example C77_ex :
  let v := [1; 2; 0; 3; 4; 0; 0; 0; 2]%R in
  repr (mk 9 [v] 3) (Z.of_nat (3 * 3)) [v] /\ dimension (mk 9 [v] 3) = Z.of_nat 3 /\ determinant 3 (full 3 v) = (-4)%R /\
  repr (mk 6 [[1; 0; 0; 1; 0; 1]%R] 3) 6 [[1; 0; 0; 1; 0; 1]%R].
Proof. cbv zeta; split; [repr_ex|]; split; [reflexivity|]; split; [det_unfold; unfold full; cbn; ring|repr_ex]. Qed.

(** ** C78 *)
Definition tol : R := (1 / 10000000000)%R.

Definition inv6 (v : list R) : list R :=
  match v with
  | [xx; xy; xz; yy; yz; zz] =>
      let d := (/ determinant 3 (sym3 v))%R in
      [(yy * zz - yz * yz) * d; (xz * yz - xy * zz) * d; (xy * yz - xz * yy) * d; (xx * zz - xz * xz) * d; (xy * xz - xx * yz) * d; (xx * yy - xy * xy) * d]%R
  | _ => []
  end.
Lemma inv6_item_R v : len v = 6 ->
  @inv6_item R r_num v = if Rlt_bool (Rabs (determinant 3 (sym3 v))) tol then Throw RuntimeError else Ok (inv6 v).
Proof.
  intros Lv; destruct (len6 v Lv) as (xx & xy & xz & yy & yz & zz & ->).
  set (D := (xx * (yy * zz - yz * yz) - xy * (xy * zz - yz * xz) + xz * (xy * yz - yy * xz))%R).
  assert (E : determinant 3 (sym3 [xx; xy; xz; yy; yz; zz]) = D) by (unfold D; det_unfold; unfold sym3; cbn; ring).
  unfold inv6; rewrite E; cbv zeta; replace (/ D)%R with (1 / D)%R by (unfold Rdiv; ring); reflexivity.
Qed.
Lemma tol_nz d : Rlt_bool (Rabs d) tol = false -> d <> 0%R.
Proof.
  intros H E; apply Rlt_bool_false_inv in H || (revert H; case Rlt_bool_spec; [discriminate|intros H _]).
  all: rewrite E, Rabs_R0 in H; unfold tol in H; lra.
Qed.

Theorem C78_inverse :
  forall (s : Serie R) rows,
  repr s 6 rows -> dimension s = 3 -> rows <> [] ->
  (forall v, In v rows -> (tol <= Rabs (determinant 3 (sym3 v)))%R) ->
  exists rows', @inv R r_num s = Ok (mk 6 rows' 3) /\ length rows' = length rows /\
    (forall i v w, nth_error rows i = Some v -> nth_error rows' i = Some w ->
       mat_eq 3 (mat_mul 3 (sym3 w) (sym3 v)) mat_id /\ mat_eq 3 (mat_mul 3 (sym3 v) (sym3 w)) mat_id) /\
    ((forall w, In w rows' -> (tol <= Rabs (determinant 3 (sym3 w)))%R) -> @inv R r_num (mk 6 rows' 3) = Ok (mk 6 rows 3)).
Proof.
  assert (G : forall (s : Serie R) rows, repr s 6 rows -> dimension s = 3 -> rows <> [] ->
    (forall v, In v rows -> (tol <= Rabs (determinant 3 (sym3 v)))%R) -> @inv R r_num s = Ok (mk 6 (map inv6 rows) 3)).
  { intros s rows Hs Hd Hne Ht; pose proof (repr_rows _ _ _ Hs) as Rr; unfold rows_of_size in Rr; rewrite Forall_forall in Rr.
    unfold inv; rewrite (isValid_repr _ _ _ Hs), (repr_itemSize _ _ _ Hs), Hd; cbn [Z.ltb Z.compare negb Z.eqb Pos.eqb orb andb].
    apply (map_rows_ok s 6 rows inv6_item inv6 6 Hs Hne ltac:(lia)).
    intros v Hv; rewrite inv6_item_R by auto; rewrite Rlt_bool_false by (apply Ht; exact Hv); split; [reflexivity|].
    destruct (len6 v (Rr v Hv)) as (? & ? & ? & ? & ? & ? & ->); reflexivity. }
  intros s rows Hs Hd Hne Ht; pose proof (repr_rows _ _ _ Hs) as Rr; unfold rows_of_size in Rr; rewrite Forall_forall in Rr.
  exists (map inv6 rows); split; [apply G; assumption|]; split; [apply map_length|].
  assert (Nz : forall v, In v rows -> determinant 3 (sym3 v) <> 0%R).
  { intros v Hv; apply tol_nz, Rlt_bool_false, Ht, Hv. }
  split.
  - intros i v w Ev Ew; rewrite nth_error_map, Ev in Ew; injection Ew as <-; apply nth_error_In in Ev.
    specialize (Nz v Ev); destruct (len6 v (Rr v Ev)) as (xx & xy & xz & yy & yz & zz & ->).
    unfold inv6; cbv zeta; revert Nz; set (D := determinant 3 (sym3 [xx; xy; xz; yy; yz; zz])).
    assert (ED : D = (xx * (yy * zz - yz * yz) - xy * (xy * zz - yz * xz) + xz * (xy * yz - yy * xz))%R) by (unfold D; det_unfold; unfold sym3; cbn; ring).
    clearbody D; intros Nz; split; intros [|[|[|p]]] [|[|[|q]]] Hp Hq; try lia;
      unfold mat_mul, upto, LinSpec.total, sym3, mat_id; cbn; rewrite ED; field; rewrite <- ED; exact Nz.
  - intros Ht'; rewrite (G (mk 6 (map inv6 rows) 3) (map inv6 rows)).
    + do 2 f_equal; rewrite map_map; transitivity (map (fun v => v) rows); [|apply map_id]; apply map_ext_in; intros v Hv.
      specialize (Nz v Hv); assert (Nw : determinant 3 (sym3 (inv6 v)) <> 0%R) by (apply tol_nz, Rlt_bool_false, Ht', in_map, Hv).
      destruct (len6 v (Rr v Hv)) as (xx & xy & xz & yy & yz & zz & ->).
      set (D := determinant 3 (sym3 [xx; xy; xz; yy; yz; zz])) in *.
      assert (ED : D = (xx * (yy * zz - yz * yz) - xy * (xy * zz - yz * xz) + xz * (xy * yz - yy * xz))%R) by (unfold D; det_unfold; unfold sym3; cbn; ring).
      assert (E1 : inv6 [xx; xy; xz; yy; yz; zz] =
        [(yy * zz - yz * yz) * / D; (xz * yz - xy * zz) * / D; (xy * yz - xz * yy) * / D; (xx * zz - xz * xz) * / D; (xy * xz - xx * yz) * / D; (xx * yy - xy * xy) * / D]%R) by reflexivity.
      assert (ED2 : determinant 3 (sym3 (inv6 [xx; xy; xz; yy; yz; zz])) = (/ D)%R).
      { rewrite E1; clearbody D; det_unfold; unfold sym3; cbn; rewrite ED; field; rewrite <- ED; exact Nz. }
      rewrite E1 in ED2 |- *; unfold inv6; cbv zeta; rewrite ED2; clear ED2 E1 Nw; clearbody D.
      rewrite Rinv_inv; repeat f_equal; rewrite ED; field; rewrite <- ED; exact Nz.
    + apply repr_mk.
      * apply Forall_forall; intros w Hw; apply in_map_iff in Hw; destruct Hw as (v & <- & Hv).
        destruct (len6 v (Rr v Hv)) as (? & ? & ? & ? & ? & ? & ->); reflexivity.
      * lia.
      * rewrite len_map; unfold repr in Hs; tauto.
      * rewrite len_map; unfold repr in Hs; tauto.
    + reflexivity.
    + destruct rows; [congruence|discriminate].
    + exact Ht'.
Qed.
Print Assumptions C78_inverse.

Theorem C78_refused :
  forall (s : Serie R) rows,
  repr s 6 rows -> dimension s = 3 -> (exists v, In v rows /\ (Rabs (determinant 3 (sym3 v)) < tol)%R) -> @inv R r_num s = Throw RuntimeError.
Proof.
  intros s rows Hs Hd (v & Hv & Ht); pose proof (repr_rows _ _ _ Hs) as Rr; unfold rows_of_size in Rr; rewrite Forall_forall in Rr.
  unfold inv; rewrite (isValid_repr _ _ _ Hs), (repr_itemSize _ _ _ Hs), Hd; cbn [Z.ltb Z.compare negb Z.eqb Pos.eqb orb andb].
  apply (map_rows_throw s 6 rows inv6_item inv6 6 RuntimeError Hs).
  - intros r Hr; rewrite inv6_item_R by auto; destruct (Rlt_bool _ _); [right; reflexivity|left; split; [reflexivity|]].
    destruct (len6 r (Rr r Hr)) as (? & ? & ? & ? & ? & ? & ->); reflexivity.
  - exists v; split; [exact Hv|]; rewrite inv6_item_R by auto; rewrite Rlt_bool_true by exact Ht; reflexivity.
Qed.
Print Assumptions C78_refused.

Example C78_ex :
  let v := [2; 1; 0; 2; 0; 1]%R in
  repr (mk 6 [v] 3) 6 [v] /\ dimension (mk 6 [v] 3) = 3 /\ determinant 3 (sym3 v) = 3%R /\ (tol <= Rabs (determinant 3 (sym3 v)))%R.
Proof.
  cbv zeta; split; [repr_ex|]; split; [reflexivity|]; assert (E : determinant 3 (sym3 [2; 1; 0; 2; 0; 1]%R) = 3%R) by (det_unfold; unfold sym3; cbn; ring).
  split; [exact E|rewrite E; unfold tol; rewrite Rabs_right; lra].
Qed.

(** ** C79 *)
Definition inv9 (v : list R) : list R :=
  match v with
  | [xx; xy; xz; yx; yy; yz; zx; zy; zz] =>
      let d := (/ determinant 3 (full 3 v))%R in
      [(yy * zz - yz * zy) * d; (xz * zy - xy * zz) * d; (xy * yz - xz * yy) * d;
       (yz * zx - yx * zz) * d; (xx * zz - xz * zx) * d; (zx * xy - xx * zy) * d;
       (yx * zy - yy * zx) * d; (xy * zx - xx * zy) * d; (xx * yy - xy * yx) * d]%R
  | _ => []
  end.
Lemma inv9_item_R v : len v = 9 ->
  @inv9_item R r_num v = if Rlt_bool (Rabs (determinant 3 (full 3 v))) tol then Throw RuntimeError else Ok (inv9 v).
Proof.
  intros Lv; destruct (len9 v Lv) as (xx & xy & xz & yx & yy & yz & zx & zy & zz & ->).
  set (D := (xx * (yy * zz - yz * zy) - xy * (yx * zz - yz * zx) + xz * (yx * zy - yy * zx))%R).
  assert (E : determinant 3 (full 3 [xx; xy; xz; yx; yy; yz; zx; zy; zz]) = D) by (unfold D; det_unfold; unfold full; cbn; ring).
  unfold inv9; rewrite E; cbv zeta; replace (/ D)%R with (1 / D)%R by (unfold Rdiv; ring); reflexivity.
Qed.
Lemma inv9_ok (s : Serie R) rows :
  repr s 9 rows -> dimension s = 3 -> rows <> [] -> (forall v, In v rows -> (tol <= Rabs (determinant 3 (full 3 v)))%R) ->
  @inv R r_num s = Ok (mk 9 (map inv9 rows) 3).
Proof.
  intros Hs Hd Hne Ht; pose proof (repr_rows _ _ _ Hs) as Rr; unfold rows_of_size in Rr; rewrite Forall_forall in Rr.
  unfold inv; rewrite (isValid_repr _ _ _ Hs), (repr_itemSize _ _ _ Hs), Hd; cbn [Z.ltb Z.compare negb Z.eqb Pos.eqb orb andb].
  apply (map_rows_ok s 9 rows inv9_item inv9 9 Hs Hne ltac:(lia)).
  intros v Hv; rewrite inv9_item_R by auto; rewrite Rlt_bool_false by (apply Ht; exact Hv); split; [reflexivity|].
  destruct (len9 v (Rr v Hv)) as (? & ? & ? & ? & ? & ? & ? & ? & ? & ->); reflexivity.
Qed.

(** the third and eighth component are right, the sixth is not: the product is the identity exactly when the sixth component
    happens to be the true cofactor *)
Theorem C79_inverse_partial :
  forall (s : Serie R) rows,
  repr s 9 rows -> dimension s = 3 -> rows <> [] ->
  (forall v, In v rows -> (tol <= Rabs (determinant 3 (full 3 v)))%R) ->
  exists rows', @inv R r_num s = Ok (mk 9 rows' 3) /\ length rows' = length rows /\
    forall i v w, nth_error rows i = Some v -> nth_error rows' i = Some w ->
      (forall j, (j < 3)%nat -> mat_mul 3 (full 3 w) (full 3 v) 0 j = mat_id 0%nat j /\ mat_mul 3 (full 3 w) (full 3 v) 2 j = mat_id 2%nat j) /\
      (mat_eq 3 (mat_mul 3 (full 3 w) (full 3 v)) mat_id <->
       (full 3 v 2 0 * full 3 v 0 1 - full 3 v 0 0 * full 3 v 2 1 = full 3 v 0 2 * full 3 v 1 0 - full 3 v 0 0 * full 3 v 1 2)%R).
Proof.
  intros s rows Hs Hd Hne Ht; pose proof (repr_rows _ _ _ Hs) as Rr; unfold rows_of_size in Rr; rewrite Forall_forall in Rr.
  exists (map inv9 rows); split; [apply inv9_ok; assumption|]; split; [apply map_length|].
  intros i v w Ev Ew; rewrite nth_error_map, Ev in Ew; injection Ew as <-; apply nth_error_In in Ev.
  assert (Nz : determinant 3 (full 3 v) <> 0%R) by (apply tol_nz, Rlt_bool_false, Ht, Ev).
  destruct (len9 v (Rr v Ev)) as (xx & xy & xz & yx & yy & yz & zx & zy & zz & ->).
  unfold inv9; cbv zeta; revert Nz; set (D := determinant 3 (full 3 [xx; xy; xz; yx; yy; yz; zx; zy; zz])).
  assert (ED : D = (xx * (yy * zz - yz * zy) - xy * (yx * zz - yz * zx) + xz * (yx * zy - yy * zx))%R) by (unfold D; det_unfold; unfold full; cbn; ring).
  clearbody D; intros Nz; set (w := [_ * / D; _; _; _; _; _; _; _; _]%R).
  set (err := (zx * xy - xx * zy - (xz * yx - xx * yz))%R).
  assert (R0 : forall j, (j < 3)%nat -> mat_mul 3 (full 3 w) (full 3 [xx; xy; xz; yx; yy; yz; zx; zy; zz]) 0 j = mat_id 0%nat j).
  { intros [|[|[|j]]] Hj; try lia; unfold mat_mul, upto, LinSpec.total, full, mat_id, w; cbn; rewrite ED; field; rewrite <- ED; exact Nz. }
  assert (R2 : forall j, (j < 3)%nat -> mat_mul 3 (full 3 w) (full 3 [xx; xy; xz; yx; yy; yz; zx; zy; zz]) 2 j = mat_id 2%nat j).
  { intros [|[|[|j]]] Hj; try lia; unfold mat_mul, upto, LinSpec.total, full, mat_id, w; cbn; rewrite ED; field; rewrite <- ED; exact Nz. }
  assert (R1 : forall j, (j < 3)%nat -> mat_mul 3 (full 3 w) (full 3 [xx; xy; xz; yx; yy; yz; zx; zy; zz]) 1 j =
    (mat_id 1%nat j + err / D * full 3 [xx; xy; xz; yx; yy; yz; zx; zy; zz] 2 j)%R).
  { intros [|[|[|j]]] Hj; try lia; unfold mat_mul, upto, LinSpec.total, full, mat_id, w, err; cbn; rewrite ED; field; rewrite <- ED; exact Nz. }
  clearbody w; split; [intros j Hj; split; auto|].
  assert (Eerr : (full 3 [xx; xy; xz; yx; yy; yz; zx; zy; zz] 2 0 * full 3 [xx; xy; xz; yx; yy; yz; zx; zy; zz] 0 1 -
      full 3 [xx; xy; xz; yx; yy; yz; zx; zy; zz] 0 0 * full 3 [xx; xy; xz; yx; yy; yz; zx; zy; zz] 2 1 =
      full 3 [xx; xy; xz; yx; yy; yz; zx; zy; zz] 0 2 * full 3 [xx; xy; xz; yx; yy; yz; zx; zy; zz] 1 0 -
      full 3 [xx; xy; xz; yx; yy; yz; zx; zy; zz] 0 0 * full 3 [xx; xy; xz; yx; yy; yz; zx; zy; zz] 1 2)%R <-> err = 0%R).
  { unfold full, err; cbn; split; intros; lra. }
  rewrite Eerr; clear Eerr; split.
  - intros M; assert (Z0 : forall j, (j < 3)%nat -> (err * full 3 [xx; xy; xz; yx; yy; yz; zx; zy; zz] 2 j = 0)%R).
    { intros j Hj; pose proof (M 1%nat j ltac:(lia) Hj) as Q; rewrite R1 in Q by exact Hj.
      assert (Q' : (err / D * full 3 [xx; xy; xz; yx; yy; yz; zx; zy; zz] 2 j = 0)%R) by lra.
      apply (Rmult_eq_reg_l (/ D)%R); [|apply Rinv_neq_0_compat; exact Nz]; rewrite Rmult_0_r, <- Q'; unfold Rdiv; ring. }
    pose proof (Z0 0%nat ltac:(lia)) as A0; pose proof (Z0 1%nat ltac:(lia)) as A1; pose proof (Z0 2%nat ltac:(lia)) as A2.
    unfold full in A0, A1, A2; cbn in A0, A1, A2.
    assert (Q : (err * D = 0)%R).
    { rewrite ED; replace (err * (xx * (yy * zz - yz * zy) - xy * (yx * zz - yz * zx) + xz * (yx * zy - yy * zx)))%R with
        ((err * zz) * (xx * yy - xy * yx) + (err * zy) * (xz * yx - xx * yz) + (err * zx) * (xy * yz - xz * yy))%R by ring.
      rewrite A0, A1, A2; ring. }
    apply Rmult_integral in Q; tauto.
  - intros E0 [|[|[|p]]] j Hp Hj; try lia; auto; rewrite R1, E0 by exact Hj; unfold Rdiv; ring.
Qed.
Print Assumptions C79_inverse_partial.

(** 1 0 0 / 0 1 1 / 0 0 1 has determinant 1; the computed inverse leaves the 1 above the diagonal *)
Theorem C79_refuted :
  let v := [1; 0; 0; 0; 1; 1; 0; 0; 1]%R in
  (tol <= Rabs (determinant 3 (full 3 v)))%R /\
  exists w, @inv R r_num (mk 9 [v] 3) = Ok (mk 9 [w] 3) /\ ~ mat_eq 3 (mat_mul 3 (full 3 w) (full 3 v)) mat_id.
Proof.
  cbv zeta; assert (E : determinant 3 (full 3 [1; 0; 0; 0; 1; 1; 0; 0; 1]%R) = 1%R) by (det_unfold; unfold full; cbn; ring).
  assert (Ht : (tol <= Rabs (determinant 3 (full 3 [1; 0; 0; 0; 1; 1; 0; 0; 1]%R)))%R) by (rewrite E; unfold tol; rewrite Rabs_right; lra).
  split; [exact Ht|]; exists (inv9 [1; 0; 0; 0; 1; 1; 0; 0; 1]%R); split.
  - rewrite (inv9_ok _ [[1; 0; 0; 0; 1; 1; 0; 0; 1]%R]); [reflexivity|repr_ex|reflexivity|discriminate|].
    intros v [<-|[]]; exact Ht.
  - intros M; specialize (M 1%nat 2%nat ltac:(lia) ltac:(lia)); unfold inv9 in M; rewrite E in M.
    unfold mat_mul, upto, LinSpec.total, full, mat_id in M; cbn in M; rewrite Rinv_1 in M; lra.
Qed.
Print Assumptions C79_refuted.

Example C79_ex :
  let v := [2; 0; 0; 0; 3; 0; 0; 0; 1]%R in repr (mk 9 [v] 3) 9 [v] /\ dimension (mk 9 [v] 3) = 3 /\ (tol <= Rabs (determinant 3 (full 3 v)))%R.
Proof.
  cbv zeta; split; [repr_ex|]; split; [reflexivity|]; assert (E : determinant 3 (full 3 [2; 0; 0; 0; 3; 0; 0; 0; 1]%R) = 6%R) by (det_unfold; unfold full; cbn; ring).
  rewrite E; unfold tol; rewrite Rabs_right; lra.
Qed.
