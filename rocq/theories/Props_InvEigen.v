(** * C152: inverses of symmetric matrices, their eigenvalues and a change of units, in exact arithmetic. *)
From Coq Require Import Reals Lra Psatz.
From Flocq Require Import Core.
From Verif Require Import Base Num Serie Spec BaseFacts SerieFacts Functional FunctionalFacts Mathf MathFacts MinMaxFacts Views Algebra AlgebraFacts.
From Verif Require Import LinSpec RNum Eigen EigenFacts JacobiSpec JacobiFacts Props_Functional Props_Algebra Props_MultDiv Props_Det Props_Eigen EigenExact Props_EigenValues.
Open Scope R_scope.

Ltac sums := unfold mat_mul, mat_vec, mat_t, upto, LinSpec.total in *; cbn [seq map fold_right] in *.

Lemma det_ext A B : mat_eq 3 A B -> determinant 3 A = determinant 3 B.
Proof. intros H; det_unfold; rewrite !H by lia; reflexivity. Qed.
Lemma det_id : determinant 3 mat_id = 1.
Proof. det_unfold; unfold mat_id; cbn; ring. Qed.
Lemma det_mul A B : determinant 3 (mat_mul 3 A B) = determinant 3 A * determinant 3 B.
Proof. det_unfold; sums; ring. Qed.

Lemma inv6_len v : len v = 6%Z -> len (inv6 v) = 6%Z.
Proof. intros Lv; destruct (len6 v Lv) as (? & ? & ? & ? & ? & ? & ->); reflexivity. Qed.
Lemma inv6_repr (s : Serie R) rows : repr s 6 rows -> repr (mk 6 (map inv6 rows) 3) 6 (map inv6 rows).
Proof.
  intros Hs; pose proof (repr_rows _ _ _ Hs) as Rr; unfold rows_of_size in Rr; rewrite Forall_forall in Rr.
  assert (Hm : (6 * len rows < 4294967296)%Z) by apply Hs.
  apply repr_mk; [|lia|rewrite len_map; pose proof (len_nonneg rows); lia|rewrite len_map; exact Hm].
  apply Forall_forall; intros w Hw; apply in_map_iff in Hw; destruct Hw as (v & <- & Hv); apply inv6_len, Rr, Hv.
Qed.
Lemma inv_rows (s : Serie R) rows : repr s 6 rows -> dimension s = 3%Z -> rows <> [] ->
  (forall v, In v rows -> / 10 ^ 10 <= Rabs (determinant 3 (sym3 v))) -> @inv R r_num s = Ok (mk 6 (map inv6 rows) 3).
Proof.
  intros Hs Hd Hne Ht; assert (Et : tol = / 10 ^ 10) by (unfold tol; lra).
  pose proof (repr_rows _ _ _ Hs) as Rr; unfold rows_of_size in Rr; rewrite Forall_forall in Rr.
  unfold inv; rewrite (isValid_repr _ _ _ Hs), (repr_itemSize _ _ _ Hs), Hd; cbn [Z.ltb Z.compare negb Z.eqb Pos.eqb orb andb].
  apply (map_rows_ok s 6 rows inv6_item inv6 6 Hs Hne ltac:(lia)).
  intros v Hv; rewrite inv6_item_R by auto; rewrite Rlt_bool_false by (rewrite Et; apply Ht; exact Hv); split; [reflexivity|apply inv6_len, Rr, Hv].
Qed.
Lemma inv6_inverse v : len v = 6%Z -> determinant 3 (sym3 v) <> 0 ->
  mat_eq 3 (mat_mul 3 (sym3 (inv6 v)) (sym3 v)) mat_id /\ mat_eq 3 (mat_mul 3 (sym3 v) (sym3 (inv6 v))) mat_id.
Proof.
  intros Lv Nz; destruct (len6 v Lv) as (xx & xy & xz & yy & yz & zz & ->).
  unfold inv6; cbv zeta; revert Nz; set (D := determinant 3 (sym3 [xx; xy; xz; yy; yz; zz])).
  assert (ED : D = (xx * (yy * zz - yz * yz) - xy * (xy * zz - yz * xz) + xz * (xy * yz - yy * xz))%R) by (unfold D; det_unfold; unfold sym3; cbn; ring).
  clearbody D; intros Nz; split; intros [|[|[|p]]] [|[|[|q]]] Hp Hq; try lia;
    unfold mat_mul, upto, LinSpec.total, sym3, mat_id; cbn; rewrite ED; field; rewrite <- ED; exact Nz.
Qed.
Lemma guard_nz d : / 10 ^ 10 <= Rabs d -> d <> 0.
Proof. intros H ->; rewrite Rabs_R0 in H; lra. Qed.

(** the determinant is the product of the eigenvalues *)
Lemma det_values v mu U : decomposed 3 (sym3 v) mu U -> determinant 3 (sym3 v) = mu 0%nat * mu 1%nat * mu 2%nat.
Proof.
  intros (Ho & He & _).
  assert (D : determinant 3 U * determinant 3 U = 1).
  { transitivity (determinant 3 (mat_mul 3 U (mat_t U))); [rewrite det_mul; f_equal; det_unfold; unfold mat_t; ring|].
    rewrite (det_ext _ _ Ho); apply det_id. }
  assert (E : determinant 3 (sym3 v) * determinant 3 U = mu 0%nat * mu 1%nat * mu 2%nat * determinant 3 U).
  { transitivity (determinant 3 (fun k i => mu k * U k i)); [|det_unfold; ring].
    transitivity (determinant 3 (fun k i => upto 3 (fun j => sym3 v i j * U k j))).
    - generalize (sym3 v) as A; intros A; det_unfold; sums; ring.
    - apply det_ext; intros k i Hk Hi; apply He; assumption. }
  assert (N : determinant 3 U <> 0) by (intros Z; rewrite Z in D; lra).
  apply (Rmult_eq_reg_r (determinant 3 U)); assumption.
Qed.

(** an item is refused exactly when the product of its eigenvalues is below 1e-10 *)
Theorem C152_guard :
  forall (s : Serie R) rows, repr s 6 rows -> dimension s = 3%Z -> rows <> [] ->
  (@inv R r_num s = Throw RuntimeError <->
   exists v mu U, In v rows /\ decomposed 3 (sym3 v) mu U /\ Rabs (mu 0%nat * mu 1%nat * mu 2%nat) < / 10 ^ 10).
Proof.
  intros s rows Hs Hd Hne; assert (Et : tol = / 10 ^ 10) by (unfold tol; lra); split.
  - intros E; destruct (Exists_dec (fun v => Rabs (determinant 3 (sym3 v)) < tol) rows) as [X|X].
    + intros v; destruct (Rlt_dec (Rabs (determinant 3 (sym3 v))) tol); [left|right]; assumption.
    + apply Exists_exists in X; destruct X as (v & Hv & Hl).
      destruct (C134_eigenvalues_exist 3 v (or_intror eq_refl)) as (mu & U & D); change (symm 3 v) with (sym3 v) in D.
      exists v, mu, U; split; [exact Hv|]; split; [exact D|]; rewrite <- (det_values v mu U D), <- Et; exact Hl.
    + destruct (C78_inverse s rows Hs Hd Hne) as (r & E' & _); [|congruence].
      intros v Hv; apply Rnot_lt_le; intros Hl; apply X, Exists_exists; exists v; auto.
  - intros (v & mu & U & Hv & D & Hl); apply (C78_refused s rows Hs Hd); exists v; split; [exact Hv|].
    rewrite (det_values v mu U D), Et; exact Hl.
Qed.
Print Assumptions C152_guard.

Definition nonzero (u : nat -> R) : Prop := exists i, (i < 3)%nat /\ u i <> 0.
(** u is an eigenvector of the matrix with the value lam *)
Definition eigenpair (A : Mat) (lam : R) (u : nat -> R) : Prop := forall i, (i < 3)%nat -> upto 3 (fun j => A i j * u j) = lam * u i.

Lemma transfer (A W : Mat) lam u : mat_eq 3 (mat_mul 3 W A) mat_id -> nonzero u -> eigenpair A lam u -> lam <> 0 /\ eigenpair W (/ lam) u.
Proof.
  intros HW (p & Hp & Np) He.
  assert (K : forall i, (i < 3)%nat -> lam * upto 3 (fun j => W i j * u j) = u i).
  { intros i Hi; transitivity (upto 3 (fun j => W i j * upto 3 (fun k => A j k * u k))).
    - transitivity (upto 3 (fun j => W i j * (lam * u j))); [sums; ring|]; apply upto_ext; intros j Hj; rewrite He by exact Hj; reflexivity.
    - transitivity (upto 3 (fun k => mat_mul 3 W A i k * u k)); [sums; ring|].
      transitivity (upto 3 (fun k => mat_id i k * u k)); [apply upto_ext; intros k Hk; rewrite HW by assumption; reflexivity|].
      unfold mat_id; destruct i as [|[|[|i]]]; [..|lia]; sums; cbn; ring. }
  assert (N : lam <> 0) by (intros ->; apply Np; rewrite <- (K p Hp); ring).
  split; [exact N|]; intros i Hi; apply (Rmult_eq_reg_l lam); [|exact N]; rewrite (K i Hi); field; exact N.
Qed.

Theorem C152_eigen :
  forall (s : Serie R) rows, repr s 6 rows -> dimension s = 3%Z -> rows <> [] ->
  (forall v, In v rows -> / 10 ^ 10 <= Rabs (determinant 3 (sym3 v))) ->
  exists rows', @inv R r_num s = Ok (mk 6 rows' 3) /\ repr (mk 6 rows' 3) 6 rows' /\ length rows' = length rows /\
    forall i v w, nth_error rows i = Some v -> nth_error rows' i = Some w ->
      determinant 3 (sym3 w) * determinant 3 (sym3 v) = 1 /\
      (forall lam u, nonzero u -> (eigenpair (sym3 v) lam u <-> lam <> 0 /\ eigenpair (sym3 w) (/ lam) u)) /\
      (forall mu U, decomposed 3 (sym3 v) mu U -> 0 < mu 2%nat ->
         decomposed 3 (sym3 w) (fun k => / mu (2 - k)%nat) (fun k => U (2 - k)%nat)).
Proof.
  intros s rows Hs Hd Hne Ht; pose proof (repr_rows _ _ _ Hs) as Rr; unfold rows_of_size in Rr; rewrite Forall_forall in Rr.
  exists (map inv6 rows); split; [apply inv_rows; assumption|]; split; [apply inv6_repr with (s := s); exact Hs|]; split; [apply map_length|].
  intros i v w Hv Hw; rewrite nth_error_map, Hv in Hw; injection Hw as Hw; apply nth_error_In in Hv.
  destruct (inv6_inverse v (Rr v Hv) (guard_nz _ (Ht v Hv))) as [Hwv Hvw]; rewrite Hw in Hwv, Hvw; split; [|split].
  - rewrite <- det_mul, (det_ext _ _ Hwv); apply det_id.
  - intros lam u Hu; split; [apply transfer; assumption|].
    intros [N He]; destruct (transfer (sym3 w) (sym3 v) (/ lam) u Hvw Hu He) as [_ H]; rewrite Rinv_inv in H; exact H.
  - intros mu U (Ho & He & Hm) Hp; split; [|split].
    + intros a b Ha Hb; change (mat_mul 3 U (mat_t U) (2 - a)%nat (2 - b)%nat = mat_id a b); rewrite Ho by lia.
      destruct a as [|[|[|a]]], b as [|[|[|b]]]; try lia; reflexivity.
    + intros k j Hk Hj; assert (Nz : nonzero (U (2 - k)%nat)).
      { pose proof (Ho (2 - k)%nat (2 - k)%nat ltac:(lia) ltac:(lia)) as H1; unfold mat_id in H1; rewrite Nat.eqb_refl in H1.
        unfold nonzero; destruct (Req_dec (U (2 - k)%nat 0%nat) 0) as [Z0|Z0]; [|exists 0%nat; split; [lia|exact Z0]].
        destruct (Req_dec (U (2 - k)%nat 1%nat) 0) as [Z1|Z1]; [|exists 1%nat; split; [lia|exact Z1]].
        exists 2%nat; split; [lia|]; intros Z2; sums; rewrite Z0, Z1, Z2 in H1; lra. }
      apply (transfer (sym3 v) (sym3 w) (mu (2 - k)%nat) (U (2 - k)%nat) Hwv Nz); [|exact Hj].
      intros p Hp'; apply He; lia.
    + pose proof (Hm 0%nat ltac:(lia)); pose proof (Hm 1%nat ltac:(lia)).
      intros [|[|k]] Hk; try lia; cbn [Nat.sub]; apply Rinv_le_contravar; lra.
Qed.
Print Assumptions C152_eigen.

Lemma Forall2_at {A B} (P : A -> B -> Prop) l l' : Forall2 P l l' ->
  length l = length l' /\ forall j a b, nth_error l j = Some a -> nth_error l' j = Some b -> P a b.
Proof.
  induction 1 as [|x y l l' Hxy Fl [IHl IH]]; (split; [cbn; congruence|]); intros [|j] a b Ha Hb; try discriminate.
  - injection Ha as <-; injection Hb as <-; exact Hxy.
  - exact (IH j a b Ha Hb).
Qed.

(** what the program computes of the inverses *)
Theorem C152_values :
  forall (s : Serie R) rows, repr s 6 rows -> dimension s = 3%Z -> rows <> [] ->
  (forall v, In v rows -> / 10 ^ 10 <= Rabs (determinant 3 (sym3 v))) ->
  exists s' rows' vals, @inv R r_num s = Ok s' /\ repr s' 6 rows' /\ @eigenValues R r_num s' = Ok (mk 3 vals 3) /\ length vals = length rows /\
    forall i v w e, nth_error rows i = Some v -> nth_error rows' i = Some w -> nth_error vals i = Some e ->
      forall mu U, decomposed 3 (sym3 v) mu U -> 0 < mu 2%nat ->
      forall k, (k < 3)%nat -> (nth k e 0 - / mu (2 - k)%nat) * (nth k e 0 - / mu (2 - k)%nat) <= 2 / 10 ^ 5 * off 3 (sym3 w).
Proof.
  intros s rows Hs Hd Hne Ht.
  destruct (C152_eigen s rows Hs Hd Hne Ht) as (rows' & E & Hr' & El & HE).
  destruct (C134_exact_values (mk 6 rows' 3) 3 rows' (or_intror eq_refl) Hr' eq_refl) as (vals & Ev & Fv); [destruct rows', rows; cbn in El; congruence|].
  exists (mk 6 rows' 3), rows', vals; split; [exact E|]; split; [exact Hr'|]; split; [exact Ev|].
  destruct (Forall2_at _ _ _ Fv) as [Lv F]; split; [lia|].
  intros i v w e Hv Hw He mu U D Hp k Hk; destruct (HE i v w Hv Hw) as (_ & _ & HD).
  specialize (HD mu U D Hp).
  destruct (F i w e Hw He) as [_ G]; exact (G _ _ HD k Hk).
Qed.
Print Assumptions C152_values.

(** other units: the factor leaves the inverse as its reciprocal, as long as no determinant falls below the guard *)
Theorem C152_scale :
  forall (s : Serie R) rows t, repr s 6 rows -> dimension s = 3%Z -> rows <> [] -> t <> 0 ->
  (forall v, In v rows -> / 10 ^ 10 <= Rabs (determinant 3 (sym3 v)) /\ / 10 ^ 10 <= Rabs (t ^ 3 * determinant 3 (sym3 v))) ->
  exists s' r, @scale R r_num s t = Ok s' /\ @inv R r_num s = Ok r /\ @inv R r_num s' = @scale R r_num r (/ t).
Proof.
  intros s rows t Hs Hd Hne Nt Ht; pose proof (repr_rows _ _ _ Hs) as Rr; unfold rows_of_size in Rr; rewrite Forall_forall in Rr.
  assert (Hm : (6 * len rows < 4294967296)%Z) by apply Hs.
  set (rows' := map (map (fun x => x * t)) rows).
  assert (Es : @scale R r_num s t = Ok (mk 6 rows' 3)) by (apply (@scale_ok R r_num s 6 rows t Hs Hne); lia).
  assert (L' : forall v, In v rows -> len (map (fun x => x * t) v) = 6%Z) by (intros v Hv; rewrite len_map; apply Rr; exact Hv).
  assert (D' : forall v, In v rows -> determinant 3 (sym3 (map (fun x => x * t) v)) = t ^ 3 * determinant 3 (sym3 v)).
  { intros v Hv; destruct (len6 v (Rr v Hv)) as (? & ? & ? & ? & ? & ? & ->); det_unfold; unfold sym3; cbn; ring. }
  assert (Hr' : repr (mk 6 rows' 3) 6 rows').
  { unfold rows'; apply repr_mk; [|lia|rewrite len_map; pose proof (len_nonneg rows); lia|rewrite len_map; exact Hm].
    apply Forall_forall; intros w Hw; apply in_map_iff in Hw; destruct Hw as (v & <- & Hv); apply L'; exact Hv. }
  exists (mk 6 rows' 3), (mk 6 (map inv6 rows) 3); split; [exact Es|]; split; [apply inv_rows; auto; intros v Hv; apply Ht; exact Hv|].
  rewrite (inv_rows (mk 6 rows' 3) rows' Hr' eq_refl).
  - symmetry; rewrite (@scale_ok R r_num (mk 6 (map inv6 rows) 3) 6 (map inv6 rows) (/ t) (inv6_repr s rows Hs)); [|destruct rows; [congruence|discriminate]|lia].
    do 2 f_equal; unfold rows'; rewrite !map_map; apply map_ext_in; intros v Hv.
    pose proof (D' v Hv) as Dv; pose proof (guard_nz _ (proj1 (Ht v Hv))) as Nz; pose proof (L' v Hv) as Lv.
    destruct (len6 v (Rr v Hv)) as (xx & xy & xz & yy & yz & zz & ->); cbn [map] in *.
    unfold inv6; cbv zeta; rewrite Dv; set (D := determinant 3 (sym3 [xx; xy; xz; yy; yz; zz])) in *; cbn [map n_mul r_num].
    repeat (apply f_equal2; [field; split; assumption|]); reflexivity.
  - unfold rows'; destruct rows; [congruence|discriminate].
  - intros w Hw; unfold rows' in Hw; apply in_map_iff in Hw; destruct Hw as (v & <- & Hv); rewrite D' by exact Hv; apply Ht; exact Hv.
Qed.
Print Assumptions C152_scale.

(** the guard compares with an absolute number, so a change of units alone can make the inverse of the identity impossible *)
Theorem C152_units_refuted :
  exists (s s' : Serie R) rows t, repr s 6 rows /\ dimension s = 3%Z /\ t <> 0 /\ @inv R r_num s = Ok s /\ @scale R r_num s t = Ok s' /\
    @inv R r_num s' = Throw RuntimeError.
Proof.
  set (v := [1; 0; 0; 1; 0; 1]); set (t := / 10 ^ 4).
  assert (Hs : repr (mk 6 [v] 3) 6 [v]) by repr_ex.
  assert (D : determinant 3 (sym3 v) = 1) by (det_unfold; unfold sym3, v; cbn; ring).
  exists (mk 6 [v] 3), (mk 6 [map (fun x => x * t) v] 3), [v], t; split; [exact Hs|]; split; [reflexivity|]; split; [unfold t; lra|]; split; [|split].
  - rewrite (inv_rows _ [v] Hs eq_refl); [|discriminate|intros w [<-|[]]; rewrite D, Rabs_R1; lra].
    do 2 f_equal; cbn [map]; unfold inv6, v at 1; cbv zeta; fold v; rewrite D; unfold v; repeat f_equal; field.
  - apply (@scale_ok R r_num (mk 6 [v] 3) 6 [v] t Hs); [discriminate|lia].
  - apply (C78_refused _ [map (fun x => x * t) v]); [repr_ex|reflexivity|]; exists (map (fun x => x * t) v); split; [left; reflexivity|].
    replace (determinant 3 (sym3 (map (fun x => x * t) v))) with (t ^ 3) by (det_unfold; unfold sym3, v; cbn; ring).
    unfold t, tol; rewrite Rabs_pos_eq; lra.
Qed.
Print Assumptions C152_units_refuted.

Example C152_ex :
  let v := [2; 0; 0; 3; 0; 5] in
  repr (mk 6 [v] 3) 6 [v] /\ / 10 ^ 10 <= Rabs (determinant 3 (sym3 v)) /\ / 10 ^ 10 <= Rabs ((-2) ^ 3 * determinant 3 (sym3 v)) /\
  let mu := fun k : nat => match k with 0%nat => 5 | 1%nat => 3 | _ => 2 end in
  decomposed 3 (sym3 v) mu (fun k i => if Nat.eqb (k + i) 2 then 1 else 0) /\ 0 < mu 2%nat.
Proof.
  cbv zeta; assert (D : determinant 3 (sym3 [2; 0; 0; 3; 0; 5]) = 30) by (det_unfold; unfold sym3; cbn; ring).
  split; [repr_ex|]; rewrite D; split; [rewrite Rabs_pos_eq; lra|]; split; [rewrite Rabs_left; lra|]; split; [|lra].
  split; [|split].
  - intros [|[|[|i]]] [|[|[|j]]] Hi Hj; try lia; unfold mat_id; sums; cbn; ring.
  - intros [|[|[|i]]] [|[|[|j]]] Hi Hj; try lia; unfold sym3; sums; cbn; ring.
  - intros [|[|k]] Hk; try lia; cbn; lra.
Qed.
