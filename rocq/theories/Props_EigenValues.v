(** * C134: the returned eigenvalues are the eigenvalues of the matrix, up to a stated tolerance. *)
From Coq Require Import Reals Lra Psatz Permutation Sorted.
From Flocq Require Import Core IEEE754.BinarySingleNaN.
From Verif Require Import Base Num Serie Spec BaseFacts SerieFacts Functional FunctionalFacts Mathf MathFacts OrderFacts AlgebraFacts Props_MinMax.
From Verif Require Import F64 F64Facts F64Arith F64Round LinSpec RNum Eigen EigenFacts JacobiSpec JacobiFacts Props_Functional Props_Eigen.
From Verif Require Import F64Error F64Angle F64Rot F64Jacobi F64Step F64Sweep F64Eig Props_F64Eigen.
From Verif Require Import EigenExact.
Open Scope R_scope.

Lemma symm_symmetric n v i j : (n = 2 \/ n = 3)%nat -> (i < n)%nat -> (j < n)%nat -> symm n v i j = symm n v j i.
Proof. intros [-> | ->] Hi Hj; [destruct i as [|[|i]]; destruct j as [|[|j]]|destruct i as [|[|[|i]]]; destruct j as [|[|[|j]]]]; try lia; reflexivity. Qed.

Lemma sorted_decreasing n (e : list R) : length e = n -> StronglySorted (fun x y => y <= x) e -> decreasing n (fun k => nth k e 0).
Proof.
  intros L S k Hk; revert n e L S Hk; induction k as [|k IH]; intros n e L S Hk.
  - destruct e as [|x [|y e]]; cbn in L; try lia; inversion S as [|? ? S' F]; subst; inversion F; subst; cbn; assumption.
  - destruct e as [|x e]; cbn in L; try lia; inversion S as [|? ? S' F]; subst; apply (IH (length e) e eq_refl S'); cbn in Hk; lia.
Qed.

Lemma values_sorted {T} {NT : Num T} (good : T -> Prop) (key : T -> R) n mat e w : (n = 2 \/ n = 3)%nat -> len mat = sym_size n -> ordered_by good key ->
  eigen_item n mat = Ok (e, w) -> Forall good e -> StronglySorted (fun x y => key y <= key x) e.
Proof.
  intros Hn L Hord E G.
  destruct (symmetric_ok n (loaded n mat) Hn (loaded_size n mat Hn L)) as (a & v & thr & d & diag & ev & p & _ & _ & _ & Ld & (_ & So & _) & _ & E' & _).
  unfold eigen_item in E; rewrite E' in E; injection E as E _; rewrite <- E in *.
  apply (sort_decreasing good key (Z.of_nat n) diag ev (map Z.of_nat p) Hord ltac:(lia)); [unfold len; lia|exact So|exact G].
Qed.

(** every stored matrix has eigenvalues and an orthonormal basis of eigenvectors *)
Theorem C134_eigenvalues_exist :
  forall n (mat : list R), (n = 2 \/ n = 3)%nat -> exists mu U, decomposed n (symm n mat) mu U.
Proof. intros n mat Hn; apply (decomposition_exists n _ Hn); intros i j; apply symm_symmetric, Hn. Qed.
Print Assumptions C134_eigenvalues_exist.

(** ** Exact arithmetic *)
Theorem C134_exact_values :
  forall (s : Serie R) n rows,
  (n = 2 \/ n = 3)%nat -> repr s (sym_size n) rows -> dimension s = Z.of_nat n -> rows <> [] ->
  exists vals : list (list R),
    @eigenValues R r_num s = Ok (mk (Z.of_nat n) vals 3%Z) /\
    Forall2 (fun mat e => len e = Z.of_nat n /\ forall mu U, decomposed n (symm n mat) mu U ->
      forall k, (k < n)%nat -> (nth k e 0 - mu k) * (nth k e 0 - mu k) <= 2 / 10 ^ 5 * off n (symm n mat)) rows vals.
Proof.
  intros s n rows Hn Hs Hd Hne; pose proof (repr_rows _ _ _ Hs) as Rr.
  exists (map (@values_of R r_num n) rows); split; [apply eigenValues_ok; assumption|].
  clear Hs Hd Hne; induction Rr as [|r rows Lr Rr IH]; [constructor|]; cbn [map]; constructor; [|exact IH].
  destruct (item_R n r Hn Lr) as (e & w & E & Le & Lw & Or & Hres & _); unfold values_of; rewrite E; cbn [fst].
  split; [exact Le|]; intros mu U HU k Hk.
  apply Rle_trans with (residual n (symm n r) (fun k => nth k e 0) (full n w)); [|lra].
  apply (eigenvalues_near n (symm n r) mu U (fun k => nth k e 0) (full n w) Hn HU Or); [|exact Hk].
  apply sorted_decreasing; [unfold len in Le; lia|].
  apply (@values_sorted R r_num (fun _ => True) (fun x => x) n r e w Hn Lr r_ordered E), Forall_forall; trivial.
Qed.
Print Assumptions C134_exact_values.

(** ** Binary64 *)
Lemma item_F_values L n (mat : list F64) M : accurate L -> (n = 2 \/ n = 3)%nat -> len mat = sym_size n -> finites mat -> moderate n (symm n (map B2R mat)) M ->
  exists e w Q, @eigen_item F64 (f64_num L) n mat = Ok (e, w) /\ finites e /\ length e = n /\ orthonormal_rows n Q /\
    residual n (symm n (map B2R mat)) (fun k => nth k (map B2R e) 0) Q <= 22 / 10 ^ 6 * off n (symm n (map B2R mat)) + M * M / 10 ^ 18.
Proof.
  intros Acc Hn Lm Fm Hm; pose proof (loaded_size n mat Hn Lm) as L'; pose proof (loaded_finites n mat Hn Lm Fm) as Fl.
  assert (LR : len (map B2R mat) = sym_size n) by (unfold len; rewrite map_length; exact Lm).
  pose proof (loaded_symm n (map B2R mat) Hn LR) as Es; rewrite <- loaded_map in Es.
  destruct (@symmetric_ok F64 (f64_num L) n (loaded n mat) Hn L') as (a & v & thr & d & diag & ev & p & Ej & Sh & Ed & Ld & So & Le & E & Lw).
  assert (Hm' : moderate n (colpk (map B2R (loaded n mat))) M) by (apply (moderate_ext n (symm n (map B2R mat))); [intros i j Hi Hj; symmetry; apply Es; assumption|exact Hm]).
  destruct (jacobi_F L n (loaded n mat) M Acc Hn L' Fl Hm') as (a' & v' & thr' & d' & Ej' & Fa & Fv & (Q & B & Hb & Or & Oc & FB & EV & EA) & Ho).
  rewrite Ej in Ej'; injection Ej' as <- <- _ _.
  destruct So as (P & _ & Sv); destruct Sh as [La Lv]; cbn [fst snd] in La, Lv.
  destruct (diagonal_F n a diag Hn La Ed) as [ED Fd]; specialize (Fd Fa).
  assert (Lp : length p = n) by (rewrite (Permutation_length P), seq_length; reflexivity).
  assert (Ne : forall q, (q < n)%nat -> nth_error ev q = nth_error diag (nth q p 0%nat)).
  { intros q Hq; assert (N : nth_error (map Some ev) q = nth_error (map (nth_error diag) p) q) by (rewrite Sv; reflexivity).
    rewrite !nth_error_map in N; rewrite (nth_error_nth' p 0%nat) in N by lia; cbn [option_map] in N.
    destruct (nth_error ev q) as [x|]; cbn [option_map] in N; [injection N as N; exact N|discriminate]. }
  assert (Ee : forall q, (q < n)%nat -> nth q (map B2R ev) 0 = colpk (map B2R a) (nth q p 0%nat) (nth q p 0%nat)).
  { intros q Hq; rewrite <- ED by (apply perm_lt; assumption).
    pose proof (Ne q Hq) as N; pose proof (perm_lt n p q P Hq) as Hp.
    assert (G : forall (l : list F64) k, nth k (map B2R l) 0 = match nth_error l k with Some x => B2R x | None => 0 end).
    { induction l as [|x l IH]; intros [|k]; cbn; try reflexivity; apply IH. }
    rewrite !G, N; reflexivity. }
  pose proof Hm' as (HM & HA & _); pose proof small_facts as (_ & _ & _ & _ & S0 & _).
  assert (SD : forall i j, (i < n)%nat -> (j < n)%nat -> colpk (map B2R a) i j = colpk (map B2R a) j i).
  { intros i j _ _; unfold colpk; rewrite (Nat.max_comm i j), (Nat.min_comm i j); reflexivity. }
  exists ev, (concat (rows_at n v p)), (fun q => Q (nth q p 0%nat)); split; [exact E|split; [|split; [exact Le|split]]].
  - apply Forall_forall; intros x Hx; apply In_nth_error in Hx; destruct Hx as (q & Hq).
    assert (Hl : (q < n)%nat) by (rewrite <- Le; apply nth_error_Some; intros G; assert (Some x = None) by (transitivity (nth_error ev q); [symmetry; exact Hq|exact G]); discriminate).
    assert (Hq' : nth_error diag (nth q p 0%nat) = Some x) by (rewrite <- (Ne q Hl); exact Hq); apply nth_error_In in Hq'; unfold finites in Fd; rewrite Forall_forall in Fd; apply Fd, Hq'.
  - intros i j Hi Hj; transitivity (mat_id (nth i p 0%nat) (nth j p 0%nat)); [exact (Or _ _ (perm_lt n p i P Hi) (perm_lt n p j P Hj))|].
    unfold mat_id; destruct (Nat.eqb_spec i j) as [->|Hne]; [rewrite Nat.eqb_refl; reflexivity|].
    destruct (Nat.eqb_spec (nth i p 0%nat) (nth j p 0%nat)) as [Eq|]; [exfalso; apply Hne, (perm_inj n p); assumption|reflexivity].
  - rewrite (residual_ext n (symm n (map B2R mat)) (colpk (map B2R (loaded n mat))) _ (fun q => colpk (map B2R a) (nth q p 0%nat) (nth q p 0%nat)) _ (fun q => Q (nth q p 0%nat))).
    + unfold residual.
      rewrite (upto_perm n p (fun q => upto n (fun i => ((upto n (fun j => colpk (map B2R (loaded n mat)) i j * Q q j) - colpk (map B2R a) q q * Q q i) * (upto n (fun j => colpk (map B2R (loaded n mat)) i j * Q q j) - colpk (map B2R a) q q * Q q i))%R)) P).
      fold (residual n (colpk (map B2R (loaded n mat))) (fun q => colpk (map B2R a) q q) Q).
      assert (EQ : fro2 n (minus Q Q) <= (2 / 1000000000000) * (2 / 1000000000000)) by (rewrite fro2_zero; [lra|intros i j _ _; unfold minus; ring]).
      pose proof (near_residual n _ Q (colpk (map B2R a)) Q B M Hn ltac:(lra) HA Hb Or Oc FB EQ EA SD) as NR.
      rewrite <- (off_ext n _ _ Es); lra.
    + intros i j Hi Hj; symmetry; apply Es; assumption.
    + exact Ee.
    + intros q i _ _; reflexivity.
Qed.
Lemma finite_sorted (e : list F64) : finites e -> StronglySorted (fun x y => (ext y <= ext x)%R) e -> StronglySorted (fun x y => y <= x) (map B2R e).
Proof.
  intros F S; induction S as [|x e S IH H]; [constructor|]; unfold finites in F; rewrite Forall_cons_iff in F; destruct F as [Fx F].
  cbn [map]; constructor; [apply IH, F|]; rewrite Forall_forall in *; intros y Hy; apply in_map_iff in Hy; destruct Hy as (z & <- & Hz).
  pose proof (H z Hz) as G; rewrite !ext_finite in G by (trivial; apply F, Hz); exact G.
Qed.
Theorem C134_f64_values_partial :
  forall L (s : Serie F64) n rows,
  accurate L -> (n = 2 \/ n = 3)%nat -> repr s (sym_size n) rows -> dimension s = Z.of_nat n -> rows <> [] ->
  exists vals : list (list F64),
    @eigenValues F64 (f64_num L) s = Ok (mk (Z.of_nat n) vals 3%Z) /\
    Forall2 (fun mat e => forall M, Forall (fun x => is_finite x = true) mat -> moderate n (symm n (map B2R mat)) M ->
      Forall (fun x => is_finite x = true) e /\
      forall mu U, decomposed n (symm n (map B2R mat)) mu U ->
      forall k, (k < n)%nat -> let d := nth k (map B2R e) 0 - mu k in d * d <= 22 / 10 ^ 6 * off n (symm n (map B2R mat)) + M * M / 10 ^ 18) rows vals.
Proof.
  intros L s n rows Acc Hn Hs Hd Hne; pose proof (repr_rows _ _ _ Hs) as Rr.
  exists (map (@values_of F64 (f64_num L) n) rows); split; [apply eigenValues_ok; assumption|].
  clear Hs Hd Hne; induction Rr as [|r rows Lr Rr IH]; [constructor|]; cbn [map]; constructor; [|exact IH].
  intros M Fm Hm; destruct (item_F_values L n r M Acc Hn Lr Fm Hm) as (e & w & Q & E & Fe & Le & Or & Hres); unfold values_of; rewrite E; cbn [fst].
  split; [exact Fe|]; intros mu U HU k Hk.
  apply Rle_trans with (2 := Hres).
  apply (eigenvalues_near n _ mu U (fun k => nth k (map B2R e) 0) Q Hn HU Or); [|exact Hk].
  apply sorted_decreasing; [rewrite map_length; exact Le|]; apply finite_sorted; [exact Fe|].
  apply (@values_sorted F64 (f64_num L) not_nan ext n r e w Hn Lr (f64_ordered L) E).
  unfold finites in Fe; rewrite Forall_forall in *; intros x Hx; specialize (Fe x Hx); destruct x; try discriminate Fe; reflexivity.
Qed.
Print Assumptions C134_f64_values_partial.

(** rows 2 1 and 1 2: the eigenvalues 3 and 1, with the vectors (1, 1) and (1, -1) over the square root of 2 *)
Lemma sum2 (f : nat -> R) : upto 2 f = f 0%nat + f 1%nat.
Proof. unfold upto, LinSpec.total; cbn; ring. Qed.
Lemma swapped (a b : R) : decomposed 2 (symm 2 [a; b; a]) (fun k => match k with O => a + Rabs b | _ => a - Rabs b end)
  (fun k i => match k, i with O, O => sqrt (/ 2) | O, _ => if Rle_dec 0 b then sqrt (/ 2) else - sqrt (/ 2) | _, O => sqrt (/ 2) | _, _ => if Rle_dec 0 b then - sqrt (/ 2) else sqrt (/ 2) end).
Proof.
  assert (H : sqrt (/ 2) * sqrt (/ 2) = / 2) by (apply sqrt_sqrt; lra); set (h := sqrt (/ 2)) in *; pose proof (Rabs_pos b) as Pb.
  split; [|split].
  - intros i j Hi Hj; destruct i as [|[|i]]; destruct j as [|[|j]]; try lia; unfold mat_mul, mat_t; rewrite sum2; cbv [mat_id Nat.eqb]; destruct (Rle_dec 0 b); lra.
  - intros k i Hk Hi; destruct k as [|[|k]]; destruct i as [|[|i]]; try lia; rewrite sum2; cbv [symm sym2 Nat.eqb nth Nat.mul Nat.add];
      (destruct (Rle_dec 0 b) as [G|G]; [rewrite (Rabs_pos_eq b) by exact G|rewrite (Rabs_left b) by lra]); ring.
  - intros [|k] Hk; [lra|lia].
Qed.
Example C134_example :
  decomposed 2 (symm 2 [2; 1; 2]) (fun k => match k with O => 2 + Rabs 1 | _ => 2 - Rabs 1 end)
    (fun k i => match k, i with O, O => sqrt (/ 2) | O, _ => if Rle_dec 0 1 then sqrt (/ 2) else - sqrt (/ 2) | _, O => sqrt (/ 2) | _, _ => if Rle_dec 0 1 then - sqrt (/ 2) else sqrt (/ 2) end) /\
  repr (mk 3 [[2; 1; 2]] 2) (sym_size 2) [[2; 1; 2]] /\ off 2 (symm 2 [2; 1; 2]) = 1.
Proof. split; [apply swapped|split; [change (sym_size 2) with 3%Z; repr_ex|rewrite off2; cbv [symm sym2 Nat.eqb nth Nat.mul Nat.add]; ring]]. Qed.

(** the claim for all finite entries, and the counterexamples of C133 *)
Definition C134_f64_full : Prop :=
  forall L (s : Serie F64) n rows,
  accurate L -> (n = 2 \/ n = 3)%nat -> repr s (sym_size n) rows -> dimension s = Z.of_nat n -> rows <> [] ->
  exists vals : list (list F64),
    @eigenValues F64 (f64_num L) s = Ok (mk (Z.of_nat n) vals 3%Z) /\
    Forall2 (fun mat e => forall M, Forall (fun x => is_finite x = true) mat -> (forall i j, (i < n)%nat -> (j < n)%nat -> Rabs (symm n (map B2R mat) i j) <= M) ->
      Forall (fun x => is_finite x = true) e /\
      forall mu U, decomposed n (symm n (map B2R mat)) mu U ->
      forall k, (k < n)%nat -> let d := nth k (map B2R e) 0 - mu k in d * d <= 22 / 10 ^ 6 * off n (symm n (map B2R mat)) + M * M / 10 ^ 18) rows vals.
Lemma wrong_values (b : F64) : is_finite b = true -> bpow radix2 512 <= Rabs (B2R b) \/ Rabs (B2R b) <= bpow radix2 (-538) -> B2R b <> 0 -> ~ C134_f64_full.
Proof.
  intros F H Hne C; destruct (f64_of_Z_correct 0 ltac:(lia)) as (Z0 & Fz & _).
  assert (Hs : repr (mk 3 [[#0; b; #0]] 2) 3 [[#0; b; #0]]) by repr_ex.
  destruct (C libm_nearest (mk 3 [[#0; b; #0]] 2) 2%nat [[#0; b; #0]] libm_nearest_ok (or_introl eq_refl) Hs eq_refl ltac:(discriminate)) as (vals & Ev & FP).
  destruct (C133_diagonal_returned libm_nearest #0 b #0 _ F H Hs eq_refl) as [Dv _].
  inversion FP as [|? e ? ? P0 P']; subst; inversion P'; subst; cbn [map fst snd] in *.
  assert (Lt : Bltb #0 #0 = false) by (destruct #0 as [s|s| |s m e0 p]; try discriminate Fz; [reflexivity|destruct (Bltb (B754_finite s m e0 p) (B754_finite s m e0 p)) eqn:G; [apply (lt_ok _ _ Fz Fz) in G; lra|reflexivity]]).
  rewrite Lt in Dv; rewrite Ev in Dv.
  destruct (P0 (Rabs (B2R b))) as (_ & R0).
  - repeat (apply Forall_cons; [assumption || reflexivity|]); apply Forall_nil.
  - change (B2R (B754_zero false)) with 0; pose proof (Rabs_pos (B2R b)) as Pb; mat_cases2; cbv [symm sym2 Nat.eqb nth Nat.mul Nat.add]; rewrite ?Rabs_R0; lra.
  - change (B2R (B754_zero false)) with 0 in R0; specialize (R0 _ _ (swapped 0 (B2R b)) 0%nat ltac:(lia)).
    assert (Ee : nth 0 (map B2R e) 0 = 0).
    { injection Dv as X; destruct e as [|e0 e]; [discriminate X|]; cbn in X; injection X as -> _; exact Z0. }
    cbv zeta in R0; rewrite Ee, off2 in R0; change (symm 2 [0; B2R b; 0] 0%nat 1%nat) with (B2R b) in R0.
    rewrite <- Rabs_mult, (Rabs_pos_eq (B2R b * B2R b)) in R0 by apply sq_ge0.
    assert (0 < B2R b * B2R b) by (pose proof (Rsqr_pos_lt _ Hne) as G; exact G).
    assert (Sq : (0 - (0 + Rabs (B2R b))) * (0 - (0 + Rabs (B2R b))) = B2R b * B2R b) by (replace ((0 - (0 + Rabs (B2R b))) * (0 - (0 + Rabs (B2R b)))) with (Rabs (B2R b) * Rabs (B2R b)) by ring; rewrite <- Rabs_mult; apply Rabs_pos_eq, sq_ge0).
    rewrite Sq in R0; replace (10 ^ 6) with 1000000 in R0 by ring; replace (10 ^ 18) with 1000000000000000000 in R0 by ring; lra.
Qed.
Theorem C134_f64_refuted : ~ C134_f64_full.
Proof.
  destruct (f64_of_R_ok (bpow radix2 512)) as [E F]; [rewrite Rabs_pos_eq by apply bpow_ge_0; unfold hi; apply bpow_le; lia|].
  rewrite rnd_fmt in E by (apply generic_format_bpow; unfold SpecFloat.fexp, SpecFloat.emin; lia).
  apply (wrong_values _ F); rewrite E; [left; apply Rle_abs|apply Rgt_not_eq, bpow_gt_0].
Qed.
Print Assumptions C134_f64_refuted.
