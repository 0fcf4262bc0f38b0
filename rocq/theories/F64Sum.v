(** * Rounding errors of sums and of sums of products in binary64. *)
From Verif Require Import Base Num Spec BaseFacts F64 F64Facts F64Arith F64Round.
From Flocq Require Import Core IEEE754.BinarySingleNaN Relative Plus_error.
From Coq Require Import Reals Lra Psatz.
Open Scope R_scope.
Opaque f64_of_Z.

(** half the distance from 1 to the next double; half the smallest positive double *)
Definition uu : R := bpow radix2 (-53).
Definition eta : R := bpow radix2 (-1075).
(** [n] roundings *)
Definition growth (n : nat) : R := (1 + uu) ^ n - 1.
Definition absum (l : list F64) : R := fold_right Rplus 0 (map (fun x => Rabs (B2R x)) l).
Definition sumB (l : list F64) : R := fold_right Rplus 0 (map B2R l).

Lemma uu_pos : 0 < uu. Proof. apply bpow_gt_0. Qed.
Lemma eta_pos : 0 < eta. Proof. apply bpow_gt_0. Qed.
Lemma pow_ge_1 n : 1 <= (1 + uu) ^ n. Proof. apply pow_R1_Rle; pose proof uu_pos; lra. Qed.
Lemma growth_nonneg n : 0 <= growth n. Proof. unfold growth; pose proof (pow_ge_1 n); lra. Qed.
Lemma growth_S n : growth (S n) = growth n * (1 + uu) + uu. Proof. unfold growth; cbn [pow]; ring. Qed.
Lemma growth_mono n : growth n <= growth (S n).
Proof. rewrite growth_S; pose proof (growth_nonneg n); pose proof uu_pos; nra. Qed.
Lemma absum_nonneg l : 0 <= absum l.
Proof. unfold absum; induction l as [|x l IH]; cbn [map fold_right]; [lra|pose proof (Rabs_pos (B2R x)); lra]. Qed.
Lemma sumB_absum l : Rabs (sumB l) <= absum l.
Proof.
  unfold sumB, absum; induction l as [|x l IH]; cbn [map fold_right]; [rewrite Rabs_R0; lra|].
  eapply Rle_trans; [apply Rabs_triang|]; lra.
Qed.

(** ** One operation *)
Lemma add_inv (x y : F64) : is_finite (f64_add x y) = true -> is_finite x = true /\ is_finite y = true.
Proof. destruct x as [sx|sx| |sx mx ex Hx], y as [sy|sy| |sy my ey Hy]; try (split; reflexivity); try discriminate; destruct sx, sy; discriminate. Qed.
Lemma sub_inv (x y : F64) : is_finite (f64_sub x y) = true -> is_finite x = true /\ is_finite y = true.
Proof. destruct x as [sx|sx| |sx mx ex Hx], y as [sy|sy| |sy my ey Hy]; try (split; reflexivity); try discriminate; destruct sx, sy; discriminate. Qed.
Lemma mul_inv (x y : F64) : is_finite (f64_mul x y) = true -> is_finite x = true /\ is_finite y = true.
Proof. destruct x as [sx|sx| |sx mx ex Hx], y as [sy|sy| |sy my ey Hy]; try (split; reflexivity); try discriminate; destruct sx, sy; discriminate. Qed.
(** a quotient by a finite number *)
Lemma div_inv (x y : F64) : is_finite (f64_div x y) = true -> is_finite y = true -> is_finite x = true.
Proof. destruct x as [sx|sx| |sx mx ex Hx], y as [sy|sy| |sy my ey Hy]; try reflexivity; try discriminate; destruct sx, sy; discriminate. Qed.

Lemma half_ulp : / 2 * bpow radix2 (- (53) + 1) = uu.
Proof. unfold uu; change (- (53) + 1)%Z with (1 + -53)%Z; rewrite bpow_plus; change (bpow radix2 1) with 2; lra. Qed.
Lemma half_eta : / 2 * bpow radix2 (SpecFloat.emin 53 1024) = eta.
Proof. unfold eta; change (SpecFloat.emin 53 1024) with (1 + -1075)%Z; rewrite bpow_plus; change (bpow radix2 1) with 2; lra. Qed.
Lemma rnd_err r : exists e h, Rabs e <= uu /\ Rabs h <= eta /\ rnd r = r * (1 + e) + h.
Proof.
  destruct (error_N_FLT radix2 (SpecFloat.emin 53 1024) 53 ltac:(lia) (fun x => negb (Z.even x)) r) as (e & h & He & Hh & _ & E).
  rewrite half_ulp in He; rewrite half_eta in Hh; exists e, h; split; [exact He|split; [exact Hh|exact E]].
Qed.
Lemma add_err (x y : F64) : is_finite (f64_add x y) = true ->
  exists e, Rabs e <= uu /\ B2R (f64_add x y) = (B2R x + B2R y) * (1 + e).
Proof.
  intros F; destruct (add_inv x y F) as [Fx Fy]; destruct (add_ok x y Fx Fy (add_finite x y Fx Fy F)) as [E _].
  destruct (FLT_plus_error_N_ex radix2 (SpecFloat.emin 53 1024) 53 (fun x => negb (Z.even x)) (B2R x) (B2R y) (fmt_B2R x) (fmt_B2R y)) as (e & He & Ee).
  exists e; split; [|rewrite E; exact Ee]; eapply Rle_trans; [exact He|]; unfold u_ro; rewrite half_ulp; pose proof uu_pos as U.
  apply (Rmult_le_reg_r (1 + uu)); [lra|]; unfold Rdiv; rewrite Rmult_assoc, Rinv_l by lra; nra.
Qed.
Lemma sub_err (x y : F64) : is_finite (f64_sub x y) = true ->
  exists e, Rabs e <= uu /\ B2R (f64_sub x y) = (B2R x - B2R y) * (1 + e).
Proof.
  intros F; rewrite f64_sub_add in *; destruct (add_err x (Bopp y) F) as (e & He & E); exists e; split; [exact He|].
  rewrite E, B2R_Bopp; f_equal; lra.
Qed.
Lemma mul_err (x y : F64) : is_finite (f64_mul x y) = true ->
  exists e h, Rabs e <= uu /\ Rabs h <= eta /\ B2R (f64_mul x y) = B2R x * B2R y * (1 + e) + h.
Proof.
  intros F; destruct (mul_inv x y F) as [Fx Fy]; destruct (mul_ok x y Fx Fy (mul_finite x y F)) as [E _]; rewrite E; apply rnd_err.
Qed.
Lemma div_finite (x y : F64) : is_finite x = true -> B2R y <> 0 -> is_finite (f64_div x y) = true -> in_range (B2R x / B2R y).
Proof.
  intros Fx Hy H; unfold in_range; apply Rnot_le_lt; intros Hge.
  pose proof (Bdiv_correct 53 1024 F64_prec F64_emax mode_NE x y Hy) as C; unfold round_mode in C.
  rewrite Rlt_bool_false in C by exact Hge; unfold f64_div in H.
  rewrite <- is_finite_SF_B2SF, C in H; discriminate H.
Qed.
Lemma div_err (x y : F64) : is_finite (f64_div x y) = true -> is_finite y = true -> B2R y <> 0 ->
  exists e h, Rabs e <= uu /\ Rabs h <= eta /\ B2R (f64_div x y) = B2R x / B2R y * (1 + e) + h.
Proof.
  intros F Fy Hy; pose proof (div_inv x y F Fy) as Fx; destruct (div_ok x y Fx Hy (div_finite x y Fx Hy F)) as [E _]; rewrite E; apply rnd_err.
Qed.

(** ** Sums *)
Theorem sum_err xs : forall acc : F64, is_finite (fold_left f64_add xs acc) = true ->
  is_finite acc = true /\ Forall (fun x => is_finite x = true) xs /\
  Rabs (B2R (fold_left f64_add xs acc) - (B2R acc + sumB xs)) <= growth (length xs) * (Rabs (B2R acc) + absum xs).
Proof.
  induction xs as [|x xs IH]; intros acc F; cbn [fold_left length] in *.
  - split; [exact F|]; split; [constructor|]; unfold sumB, absum, growth; cbn [map fold_right pow].
    replace (B2R acc - (B2R acc + 0)) with 0 by ring; rewrite Rabs_R0; pose proof (Rabs_pos (B2R acc)); lra.
  - destruct (IH _ F) as (Fa & Fx & B); destruct (add_inv _ _ Fa) as [Fac Fx0]; split; [exact Fac|]; split; [constructor; assumption|].
    destruct (add_err _ _ Fa) as (e & He & E); rewrite E in B; set (f := B2R (fold_left f64_add xs (f64_add acc x))) in *.
    change (sumB (x :: xs)) with (B2R x + sumB xs); change (absum (x :: xs)) with (Rabs (B2R x) + absum xs).
    pose proof uu_pos as U; pose proof (growth_nonneg (length xs)) as G; pose proof (absum_nonneg xs) as S; rewrite growth_S.
    set (p := B2R acc + B2R x) in *; set (g := growth (length xs)) in *.
    assert (P : Rabs p <= Rabs (B2R acc) + Rabs (B2R x)) by apply Rabs_triang.
    assert (E1 : Rabs (p * e) <= uu * Rabs p) by (rewrite Rabs_mult; pose proof (Rabs_pos p); nra).
    assert (E2 : Rabs (p * (1 + e)) <= (1 + uu) * Rabs p) by (replace (p * (1 + e)) with (p + p * e) by ring; eapply Rle_trans; [apply Rabs_triang|]; lra).
    replace (f - (B2R acc + (B2R x + sumB xs))) with ((f - (p * (1 + e) + sumB xs)) + p * e) by (unfold p; ring).
    eapply Rle_trans; [apply Rabs_triang|]; pose proof (Rabs_pos p) as P0.
    assert (H1 : g * Rabs (p * (1 + e)) <= g * ((1 + uu) * Rabs p)) by (apply Rmult_le_compat_l; assumption).
    assert (H2 : (g * (1 + uu) + uu) * Rabs p <= (g * (1 + uu) + uu) * (Rabs (B2R acc) + Rabs (B2R x))) by (apply Rmult_le_compat_l; [nra|exact P]).
    assert (H3 : g * absum xs <= (g * (1 + uu) + uu) * absum xs) by (apply Rmult_le_compat_r; [exact S|nra]).
    lra.
Qed.

(** from 0 *)
Lemma sum0_err xs : is_finite (fold_left f64_add xs #0) = true -> Forall (fun x => is_finite x = true) xs /\
  Rabs (B2R (fold_left f64_add xs #0) - sumB xs) <= growth (length xs) * absum xs /\
  Rabs (B2R (fold_left f64_add xs #0)) <= (1 + uu) ^ length xs * absum xs.
Proof.
  intros F; destruct (sum_err xs #0 F) as (_ & Fx & B); rewrite (proj1 zero_B2R), Rabs_R0, !Rplus_0_l in B; split; [exact Fx|]; split; [exact B|].
  set (f := B2R (fold_left f64_add xs #0)) in *; replace f with ((f - sumB xs) + sumB xs) by ring; eapply Rle_trans; [apply Rabs_triang|].
  pose proof (sumB_absum xs); unfold growth in B; lra.
Qed.

(** ** Sums of products *)
Lemma prod_err (u v : list F64) : length u = length v -> Forall (fun p => is_finite p = true) (map2 f64_mul u v) ->
  let exact := fold_right Rplus 0 (map2 (fun x y => B2R x * B2R y) u v) in
  let exact_abs := fold_right Rplus 0 (map2 (fun x y => Rabs (B2R x * B2R y)) u v) in
  Forall (fun x => is_finite x = true) u /\ Forall (fun x => is_finite x = true) v /\ 0 <= exact_abs /\
  Rabs (sumB (map2 f64_mul u v) - exact) <= uu * exact_abs + INR (length u) * eta /\
  absum (map2 f64_mul u v) <= (1 + uu) * exact_abs + INR (length u) * eta.
Proof.
  revert v; induction u as [|x u IH]; intros [|y v] Hl Hf; cbn [length] in Hl; try discriminate.
  - cbn; repeat split; try constructor; rewrite ?Rminus_0_r, ?Rabs_R0; lra.
  - cbn [map2] in *; apply Forall_cons_iff in Hf as [F0 Hf]; destruct (IH v ltac:(lia) Hf) as (Fu & Fv & A0 & A1 & A2); cbv zeta in *.
    destruct (mul_inv x y F0) as [Fx Fy]; destruct (mul_err x y F0) as (e & h & He & Hh & E).
    split; [constructor; assumption|]; split; [constructor; assumption|].
    change (sumB (f64_mul x y :: map2 f64_mul u v)) with (B2R (f64_mul x y) + sumB (map2 f64_mul u v)).
    change (absum (f64_mul x y :: map2 f64_mul u v)) with (Rabs (B2R (f64_mul x y)) + absum (map2 f64_mul u v)).
    cbn [fold_right length]; rewrite S_INR, E; set (p := B2R x * B2R y) in *; pose proof (Rabs_pos p) as P.
    set (ex := fold_right Rplus 0 (map2 (fun x y => B2R x * B2R y) u v)) in *; set (ea := fold_right Rplus 0 (map2 (fun x y => Rabs (B2R x * B2R y)) u v)) in *.
    assert (E1 : Rabs (p * e + h) <= uu * Rabs p + eta) by (eapply Rle_trans; [apply Rabs_triang|]; rewrite Rabs_mult; nra).
    split; [lra|]; split.
    + replace (p * (1 + e) + h + sumB (map2 f64_mul u v) - (p + ex)) with ((p * e + h) + (sumB (map2 f64_mul u v) - ex)) by ring.
      eapply Rle_trans; [apply Rabs_triang|]; lra.
    + replace (p * (1 + e) + h) with (p + (p * e + h)) by ring.
      assert (Rabs (p + (p * e + h)) <= Rabs p + (uu * Rabs p + eta)) by (eapply Rle_trans; [apply Rabs_triang|]; lra); lra.
Qed.

Theorem sum_prod_err (u v : list F64) : length u = length v -> is_finite (fold_left f64_add (map2 f64_mul u v) #0) = true ->
  Forall (fun x => is_finite x = true) u /\ Forall (fun x => is_finite x = true) v /\
  Rabs (B2R (fold_left f64_add (map2 f64_mul u v) #0) - fold_right Rplus 0 (map2 (fun x y => B2R x * B2R y) u v))
  <= growth (S (length u)) * fold_right Rplus 0 (map2 (fun x y => Rabs (B2R x * B2R y)) u v) + (1 + uu) ^ length u * (INR (length u) * eta).
Proof.
  intros Hl F; destruct (sum0_err _ F) as (Fp & B & _); destruct (prod_err u v Hl Fp) as (Fu & Fv & A0 & A1 & A2); cbv zeta in *.
  split; [exact Fu|]; split; [exact Fv|].
  assert (Ln : length (map2 f64_mul u v) = length u) by (clear - Hl; revert v Hl; induction u as [|x u IH]; intros [|y v] Hl; cbn [map2 length] in *; try discriminate; [reflexivity|rewrite IH by lia; reflexivity]).
  rewrite Ln in B; set (f := B2R (fold_left f64_add (map2 f64_mul u v) #0)) in *; set (ex := fold_right Rplus 0 (map2 (fun x y => B2R x * B2R y) u v)) in *.
  set (ea := fold_right Rplus 0 (map2 (fun x y => Rabs (B2R x * B2R y)) u v)) in *; set (ps := map2 f64_mul u v) in *.
  replace (f - ex) with ((f - sumB ps) + (sumB ps - ex)) by ring; eapply Rle_trans; [apply Rabs_triang|].
  rewrite growth_S; pose proof (growth_nonneg (length u)) as G; pose proof uu_pos; pose proof eta_pos; pose proof (pos_INR (length u)).
  assert (Gp : (1 + uu) ^ length u = growth (length u) + 1) by (unfold growth; ring); rewrite Gp.
  assert (growth (length u) * absum ps <= growth (length u) * ((1 + uu) * ea + INR (length u) * eta)) by (apply Rmult_le_compat_l; assumption).
  lra.
Qed.

(** ** Order *)
Theorem sum_mono xs : forall ys (a b : F64), Forall2 (fun x y => B2R x <= B2R y) xs ys -> B2R a <= B2R b ->
  is_finite (fold_left f64_add xs a) = true -> is_finite (fold_left f64_add ys b) = true ->
  B2R (fold_left f64_add xs a) <= B2R (fold_left f64_add ys b).
Proof.
  induction xs as [|x xs IH]; intros ys a b H Hab F1 F2; inversion H as [|? y ? ys' Hxy H']; subst; cbn [fold_left] in *; [exact Hab|].
  apply IH; try assumption.
  destruct (sum_err _ _ F1) as (G1 & _); destruct (sum_err _ _ F2) as (G2 & _); destruct (add_inv _ _ G1) as [Fa Fx]; destruct (add_inv _ _ G2) as [Fb Fy].
  destruct (add_ok _ _ Fa Fx (add_finite _ _ Fa Fx G1)) as [-> _]; destruct (add_ok _ _ Fb Fy (add_finite _ _ Fb Fy G2)) as [-> _].
  apply rnd_le; lra.
Qed.
