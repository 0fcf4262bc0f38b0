(** * C145: accuracy of quantiles in binary64. *)
From Coq Require Import Permutation Sorted Reals Lra Psatz.
From Flocq Require Import Core IEEE754.BinarySingleNaN.
From Verif Require Import Base Num Serie Spec BaseFacts SerieFacts Functional Utils Mathf MathFacts MinMaxFacts Stats StatsFacts.
From Verif Require Import F64 F64Facts F64Arith F64Round F64Error OrderFacts RNum Props_Functional Props_Sort Props_Quantile Props_F64Quantile.
Open Scope Z_scope.
Opaque f64_of_Z.

(** on one piece, including both of its ends *)
Lemma interp_piece ss p i : 0 <= i -> i + 1 < len ss -> (IZR i <= p <= IZR (i + 1))%R ->
  interp ss p = (nth (Z.to_nat i) ss 0 + (p - IZR i) * (nth (Z.to_nat (i + 1)) ss 0 - nth (Z.to_nat i) ss 0))%R.
Proof.
  intros Hi Hl Hp; rewrite plus_IZR in Hp; destruct (Rle_lt_or_eq_dec p (IZR i + 1) ltac:(lra)) as [H|H].
  - unfold interp; rewrite (Zfloor_imp i p) by (rewrite plus_IZR; lra); destruct (Z.ltb_spec (i + 1) (len ss)); [reflexivity|lia].
  - subst p; replace (IZR i + 1)%R with (INR (Z.to_nat (i + 1))) by (rewrite INR_IZR_INZ, Z2Nat.id, plus_IZR by lia; reflexivity).
    rewrite interp_at by (unfold len in Hl; lia); rewrite INR_IZR_INZ, Z2Nat.id, plus_IZR by lia; ring.
Qed.

(** positions less than one apart *)
Lemma interp_lipschitz ss D p1 p2 : (forall i, 0 <= i -> i + 1 < len ss -> (Rabs (nth (Z.to_nat (i + 1)) ss 0 - nth (Z.to_nat i) ss 0) <= D)%R) ->
  (0 <= D)%R -> (0 <= p1)%R -> (p1 <= p2)%R -> (p2 <= IZR (len ss - 1))%R -> (p2 - p1 < 1)%R -> (Rabs (interp ss p2 - interp ss p1) <= D * (p2 - p1))%R.
Proof.
  intros HD D0 H0 H12 H2 H1.
  destruct (floor_range p1 (len ss - 1) ltac:(lra)) as [A1 A2].
  pose proof (Zfloor_lb p1) as Lb; pose proof (Zfloor_ub p1) as Ub; set (i := Zfloor p1) in *; clearbody i.
  destruct (Z.eq_dec i (len ss - 1)) as [E|N].
  { rewrite <- E in H2; replace p2 with p1 by lra; replace (_ - _)%R with 0%R by ring; rewrite Rabs_R0; nra. }
  rewrite (interp_piece ss p1 i) by (rewrite ?plus_IZR; lia || lra).
  pose proof (HD i A1 ltac:(lia)) as Hi; apply abs_le in Hi.
  destruct (Rle_lt_dec p2 (IZR (i + 1))) as [X|X]; rewrite plus_IZR in X.
  - rewrite (interp_piece ss p2 i) by (rewrite ?plus_IZR; lia || lra).
    set (a := nth (Z.to_nat i) ss 0%R) in *; set (b := nth (Z.to_nat (i + 1)) ss 0%R) in *; clearbody a b; apply abs_le; nra.
  - assert (i + 1 < len ss - 1) by (apply lt_IZR; rewrite plus_IZR; lra).
    rewrite (interp_piece ss p2 (i + 1)) by (rewrite ?plus_IZR; lia || lra).
    pose proof (HD (i + 1) ltac:(lia) ltac:(lia)) as Hj; apply abs_le in Hj; rewrite plus_IZR.
    set (a := nth (Z.to_nat i) ss 0%R) in *; set (b := nth (Z.to_nat (i + 1)) ss 0%R) in *; set (c := nth (Z.to_nat (i + 1 + 1)) ss 0%R) in *; clearbody a b c.
    apply abs_le; replace (b + (p2 - (IZR i + 1)) * (c - b) - (a + (p1 - IZR i) * (b - a)))%R with ((IZR i + 1 - p1) * (b - a) + (p2 - (IZR i + 1)) * (c - b))%R by ring.
    nra.
Qed.

Lemma close_small xs M : Forall (fun x => is_finite x = true /\ (Rabs (B2R x) <= M)%R) xs -> (M <= bpow radix2 999)%R -> close xs.
Proof.
  intros F HM; rewrite Forall_forall in F; split; [apply Forall_forall; intros x Hx; apply F; exact Hx|].
  intros x y Hx Hy; destruct (F x Hx) as [Fx Ax], (F y Hy) as [Fy Ay]; apply sub_ok; try assumption; apply small_range.
  unfold hi; change 1000 with (1 + 999); rewrite bpow_plus; change (bpow radix2 1) with 2%R; apply abs_le in Ax, Ay; apply abs_le; lra.
Qed.

Section Err.
  Variables (L : Libm) (sorter : Sorter) (s : Serie F64) (xs : list F64) (M : R) (ss : list R) (q : F64).
  Hypothesis Hc : conforms sorter.
  Hypothesis Hs : repr s 1 (col xs).
  Hypothesis Hne : xs <> [].
  Hypothesis HF : Forall (fun x => is_finite x = true /\ (Rabs (B2R x) <= M)%R) xs.
  Hypothesis HM : (lo <= M <= bpow radix2 998)%R.
  Hypothesis P : Permutation (map B2R xs) ss.
  Hypothesis So : StronglySorted Rle ss.
  Hypothesis Fq : is_finite q = true.
  Hypothesis Hq : (0 <= B2R q <= 1)%R.
  Lemma Hcl : close xs.
  Proof. apply (close_small _ M); [exact HF|]; apply Rle_trans with (1 := proj2 HM), bpow_le; lia. Qed.
  Lemma ss_eq : map B2R (sorter F64 (@n_ltb F64 (f64_num L)) xs) = ss.
  Proof.
    apply sorted_eq; [| |exact So].
    - rewrite <- P; apply Permutation_map; symmetry; exact (sorted_perm L sorter Hc xs Hcl).
    - pose proof (sorted_ss L sorter Hc xs Hcl) as S; clear - S; induction S as [|x l _ IH Ha]; [constructor|]; cbn [map]; constructor; [exact IH|]; apply Forall_map; exact Ha.
  Qed.
  Lemma at_nth i : B2R (at_ L sorter xs i) = nth (Z.to_nat i) ss 0%R.
  Proof. unfold at_; rewrite <- nth_map_B2R, ss_eq; reflexivity. Qed.
  Lemma len_ss : len ss = len xs.
  Proof. unfold len; f_equal; rewrite <- (Permutation_length P); apply map_length. Qed.
  Lemma nth_bound i : 0 <= i < len xs -> (Rabs (nth (Z.to_nat i) ss 0) <= M)%R.
  Proof. intros H; rewrite <- at_nth; apply (proj1 (Forall_forall _ _) HF), (at_in L sorter Hc xs Hcl #0); exact H. Qed.
  Let pos := f64_mul (f64_of_Z (len xs - 1)) q.
  Let exact_pos := (IZR (len xs - 1) * B2R q)%R.

  Lemma quantile_err : exists v, @quantile F64 (f64_num L) sorter s q = Ok v /\ is_finite v = true /\
    (Rabs (B2R v - interp ss exact_pos) <= uu * M * (2 * IZR (len xs) + 4))%R.
  Proof.
    destruct (pos_ok L sorter s xs Hs Hne Hcl q Fq Hq) as (Fp & Ep & Rp); fold pos in Fp, Ep, Rp; fold exact_pos in Ep.
    destruct (rest_ok L sorter s xs Hs Hne Hcl q Fq Hq) as (Fr & Er & Rr); fold pos in Fr, Er, Rr.
    pose proof (b_ok L sorter s xs Hs Hne Hcl q Fq Hq) as Hb; fold pos in Hb.
    pose proof (len_pos L sorter s xs Hs Hne Hcl q) as Lp.
    rewrite (quantile_steps L sorter Hc s xs Hs Hne Hcl q Fq Hq); fold pos.
    pose proof lo_pos as L0; assert (U0 : (0 < uu < / 1000000)%R) by (unfold uu; lra).
    assert (M8 : (4 * M <= hi)%R) by (unfold hi; change 1000 with (2 + 998); rewrite bpow_plus; change (bpow radix2 2) with 4%R; lra).
    (* the position *)
    assert (N0 : (0 <= IZR (len xs - 1))%R) by (apply IZR_le; lia).
    assert (R0 : (0 <= exact_pos <= IZR (len xs - 1))%R) by (unfold exact_pos; split; [apply Rmult_le_pos; lra|nra]).
    assert (Np : (Rabs (B2R pos - exact_pos) <= uu * IZR (len xs - 1))%R).
    { rewrite Ep; destruct (Z.eq_dec (len xs) 1) as [E1|N1].
      - rewrite E1 in R0 |- *; change (1 - 1) with 0 in *; replace exact_pos with 0%R by lra; rewrite rnd_0; replace (0 - 0)%R with 0%R by ring; rewrite Rabs_R0; lra.
      - apply rnd_err; [rewrite Rabs_pos_eq; lra|]; destruct lo_hi as (_ & X & _); apply Rle_trans with (1 := X); apply IZR_le; lia. }
    assert (N1 : (uu * IZR (len xs - 1) < 1)%R).
    { assert (IZR (len xs - 1) <= 4294967296)%R by (apply IZR_le; lia); unfold uu; lra. }
    assert (LI : (Rabs (interp ss (B2R pos) - interp ss exact_pos) <= 2 * M * (uu * IZR (len xs - 1)))%R).
    { assert (HD : forall i, 0 <= i -> i + 1 < len ss -> (Rabs (nth (Z.to_nat (i + 1)) ss 0 - nth (Z.to_nat i) ss 0) <= 2 * M)%R).
      { intros i Hi Hl; rewrite len_ss in Hl; pose proof (nth_bound i ltac:(lia)) as Q1; pose proof (nth_bound (i + 1) ltac:(lia)) as Q2; apply abs_le in Q1, Q2; apply abs_le; lra. }
      apply abs_le in Np; rewrite <- len_ss in R0, Rp.
      destruct (Rle_lt_dec (B2R pos) exact_pos) as [X|X].
      - rewrite <- Rabs_Ropp, Ropp_minus_distr; apply Rle_trans with (2 * M * (exact_pos - B2R pos))%R; [apply interp_lipschitz; try exact HD; lra|apply Rmult_le_compat_l; lra].
      - apply Rle_trans with (2 * M * (B2R pos - exact_pos))%R; [apply interp_lipschitz; try exact HD; lra|apply Rmult_le_compat_l; lra]. }
    (* the interpolation *)
    assert (V : nearby (if Zfloor (B2R pos) + 1 <? len xs
        then f64_add (at_ L sorter xs (Zfloor (B2R pos))) (f64_mul (f64_sub pos (Bnearbyint mode_DN pos)) (f64_sub (at_ L sorter xs (Zfloor (B2R pos) + 1)) (at_ L sorter xs (Zfloor (B2R pos)))))
        else at_ L sorter xs (Zfloor (B2R pos))) (interp ss (B2R pos)) (uu * M * 6)%R).
    { unfold interp; rewrite len_ss; set (b := Zfloor (B2R pos)) in *.
      pose proof (at_finite L sorter Hc xs Hcl #0) as AF.
      destruct (Z.ltb_spec (b + 1) (len xs)) as [X|X].
      - pose proof (nth_bound b ltac:(lia)) as Q1; pose proof (nth_bound (b + 1) ltac:(lia)) as Q2.
        pose proof (nearby_self _ (AF b ltac:(lia))) as S1; pose proof (nearby_self _ (AF (b + 1) ltac:(lia))) as S2; pose proof (nearby_self _ Fr) as S3.
        rewrite at_nth in S1, S2; rewrite Er in S3.
        set (x := at_ L sorter xs b) in *; set (y := at_ L sorter xs (b + 1)) in *; set (rest := f64_sub pos (Bnearbyint mode_DN pos)) in *.
        rewrite Er in Rr; set (t := (B2R pos - IZR b)%R) in *.
        set (a := nth (Z.to_nat b) ss 0%R) in *; set (c := nth (Z.to_nat (b + 1)) ss 0%R) in *; clearbody x y rest t a c.
        apply abs_le in Q1, Q2.
        assert (D : nearby (f64_sub y x) (c - a) (uu * (2 * M))%R).
        { apply (sub_near y x c a 0 0 (2 * M))%R; try assumption; [assert (Rabs (c - a) <= 2 * M)%R by (apply abs_le; lra); lra|lra|lra]. }
        assert (UM : (0 <= uu * M <= M / 1000000)%R) by (split; nra).
        assert (UUM : (0 <= uu * (uu * M) <= uu * M / 1000000)%R) by (split; nra).
        assert (Pr : nearby (f64_mul rest (f64_sub y x)) (t * (c - a)) (uu * M * 4 + 2 * (uu * (uu * M)))%R).
        { apply (mul_near _ _ t (c - a) 0 (uu * (2 * M)) 1 (2 * M) (2 * M + uu * (2 * M)))%R; try assumption.
          - apply abs_le; lra.
          - apply abs_le; lra.
          - lra.
          - lra.
          - lra. }
        apply (add_near _ _ a (t * (c - a)) 0 (uu * M * 4 + 2 * (uu * (uu * M))) (M + (uu * M * 4 + 2 * (uu * (uu * M)))))%R; try assumption.
        + assert (Rabs (a + t * (c - a)) <= M)%R by (apply abs_le; nra); lra.
        + lra.
        + assert (uu * (uu * (uu * M)) <= uu * (uu * M))%R by nra; lra.
      - pose proof (nearby_self _ (AF b ltac:(lia))) as S1; rewrite at_nth in S1; apply (nearby_le _ _ _ _ S1); nra. }
    eexists; split; [reflexivity|]; destruct V as [FV V]; split; [exact FV|]; apply abs_le in V, LI; apply abs_le; rewrite minus_IZR in LI; lra.
  Qed.
End Err.

(** ** C145 *)
(** the quantile is near the quantile of the same numbers computed exactly *)
Theorem C145_error :
  forall (L : Libm) (sorter : Sorter) (s : Serie F64) (r : Serie R) xs q M,
  conforms sorter -> repr s 1 (col xs) -> repr r 1 (col (map B2R xs)) -> xs <> [] ->
  Forall (fun x => is_finite x = true /\ (Rabs (B2R x) <= M)%R) xs -> (bpow radix2 (-1000) <= M <= bpow radix2 998)%R ->
  is_finite q = true -> (0 <= B2R q <= 1)%R ->
  exists v e, @quantile F64 (f64_num L) sorter s q = Ok v /\ @quantile R r_num sorter r (B2R q) = Ok e /\ is_finite v = true /\
    (Rabs (B2R v - e) <= / 2 ^ 53 * M * (2 * IZR (len xs) + 4))%R.
Proof.
  intros L sorter s r xs q M Hc Hs Hr Hne HF HM Fq Hq.
  set (ss := sorter R (@n_ltb R r_num) (map B2R xs)); destruct (Hc R (@n_ltb R r_num) (map B2R xs) (r_swo _)) as [P So]; fold ss in P, So; apply sorted_lt_le in So.
  destruct (quantile_err L sorter s xs M ss q Hc Hs Hne HF HM P So Fq Hq) as (v & E & F & B).
  exists v, (interp ss (IZR (len xs - 1) * B2R q)); split; [exact E|]; split; [|split; [exact F|]].
  - rewrite (quantile_interp sorter Hc r (map B2R xs) ss) by (try assumption; intros X; apply map_eq_nil in X; contradiction); unfold len; rewrite map_length; reflexivity.
  - unfold uu in B; replace (2 ^ 53)%R with 9007199254740992%R by ring; exact B.
Qed.
Print Assumptions C145_error.

(** a whole position: the quantile is that item, without any error *)
Theorem C145_rank :
  forall (L : Libm) (sorter : Sorter) (s : Serie F64) xs ss q (k : nat),
  conforms sorter -> repr s 1 (col xs) -> xs <> [] -> close xs -> Permutation xs ss -> fsorted ss ->
  is_finite q = true -> (0 <= B2R q <= 1)%R -> (IZR (len xs - 1) * B2R q = INR k)%R ->
  exists v, @quantile F64 (f64_num L) sorter s q = Ok v /\ B2R v = B2R (nth k ss dflt).
Proof.
  intros L sorter s xs ss q k Hc Hs Hne Hcl P So Fq Hq Hk.
  destruct (quantile_between L sorter Hc s xs Hs Hne Hcl q Fq Hq) as (v & E & F & Lo & Up & La).
  destruct (pos_ok L sorter s xs Hs Hne Hcl q Fq Hq) as (G & Ep & Rp); pose proof (b_ok L sorter s xs Hs Hne Hcl q Fq Hq) as Hb.
  destruct (rest_ok L sorter s xs Hs Hne Hcl q Fq Hq) as (Fr & Er & Rr).
  pose proof (len_pos L sorter s xs Hs Hne Hcl q) as Lp.
  set (p := f64_mul (f64_of_Z (len xs - 1)) q) in *.
  assert (Kb : Z.of_nat k <= len xs - 1) by (apply le_IZR; rewrite <- INR_IZR_INZ, <- Hk; assert (0 <= IZR (len xs - 1))%R by (apply IZR_le; lia); nra).
  rewrite Hk, INR_IZR_INZ, rnd_int in Ep by lia; rewrite Ep in *; rewrite (Zfloor_IZR (Z.of_nat k)) in *.
  pose proof (fsorted_unique _ _ (Permutation_trans (Permutation_sym P) (sorted_perm L sorter Hc xs Hcl)) So (sorted_ss L sorter Hc xs Hcl)) as U.
  assert (AT : forall i, B2R (at_ L sorter xs i) = B2R (nth (Z.to_nat i) ss dflt)) by (intros i; unfold at_; rewrite <- !nth_map_B2R, U; reflexivity).
  exists v; split; [exact E|]; rewrite <- (Nat2Z.id k), <- AT.
  destruct (Z.lt_ge_cases (Z.of_nat k + 1) (len xs)) as [X|X]; [|rewrite (La X); reflexivity].
  destruct (Up X) as [_ ->]; apply lerp_0; try assumption; try (apply (at_finite L sorter Hc xs Hcl #0); lia).
  - apply (proj2 Hcl); apply (at_in L sorter Hc xs Hcl #0); lia.
  - apply (at_mono L sorter Hc xs Hcl #0); lia.
  - rewrite Er; ring.
Qed.
Print Assumptions C145_rank.

Lemma ratio_B2R a n : 0 <= a <= 4 -> 0 <= n <= 2 -> B2R (f64_div #a #(2 ^ n)) = (IZR a / IZR (2 ^ n))%R /\ is_finite (f64_div #a #(2 ^ n)) = true.
Proof.
  intros Ha Hn; assert (Hp : 1 <= 2 ^ n <= 4) by (assert (n = 0 \/ n = 1 \/ n = 2) as [-> | [-> | ->]] by lia; cbn; lia).
  destruct (f64_of_Z_correct a ltac:(lia)) as (A & F & _), (f64_of_Z_correct (2 ^ n) ltac:(lia)) as (B & G & _).
  assert (Hp' : (1 <= IZR (2 ^ n))%R) by (apply IZR_le; lia).
  assert (Ha' : (0 <= IZR a <= 4)%R) by (split; apply IZR_le; lia).
  assert (Q : fmt (IZR a / IZR (2 ^ n))).
  { replace (IZR a / IZR (2 ^ n))%R with (F2R (Float radix2 a (- n))).
    - destruct (Z.eq_dec a 0) as [-> |N]; [rewrite F2R_0; apply generic_format_0|].
      apply generic_format_F2R; intros _; unfold cexp, SpecFloat.fexp, SpecFloat.emin.
      apply Z.max_lub; [|lia].
      rewrite mag_F2R by exact N; assert (mag radix2 (IZR a) <= 3)%Z by (apply mag_le_bpow; [apply IZR_neq; exact N|rewrite Rabs_pos_eq by lra; change (bpow radix2 3) with 8%R; lra]); lia.
    - unfold F2R; cbn [Fnum Fexp]; rewrite bpow_opp, <- (IZR_Zpower radix2) by lia; reflexivity. }
  assert (Hd : (0 <= IZR a / IZR (2 ^ n) <= 4)%R).
  { split; [apply Rmult_le_pos; [lra|left; apply Rinv_0_lt_compat; lra]|].
    apply Rle_trans with (IZR a / 1)%R; [|lra]; apply Rmult_le_compat_l; [lra|apply Rinv_le; lra]. }
  destruct (div_ok #a #(2 ^ n) F) as [E X].
  - rewrite B; lra.
  - rewrite A, B; apply small_range; rewrite Rabs_pos_eq by lra; unfold hi; apply Rle_trans with (1 := proj2 Hd); change 4%R with (bpow radix2 2); apply bpow_le; lia.
  - split; [|exact X]; rewrite E, A, B; apply rnd_fmt; exact Q.
Qed.

(** the median of an odd number of values, the quartiles of 4 j + 1 values *)
Theorem C145_median :
  forall (L : Libm) (sorter : Sorter) (s : Serie F64) xs ss,
  conforms sorter -> repr s 1 (col xs) -> close xs -> Permutation xs ss -> fsorted ss ->
  (forall j : nat, length xs = (2 * j + 1)%nat -> exists v, @q50 F64 (f64_num L) sorter s = Ok v /\ B2R v = B2R (nth j ss dflt)) /\
  (forall j : nat, length xs = (4 * j + 1)%nat ->
     (exists v, @q25 F64 (f64_num L) sorter s = Ok v /\ B2R v = B2R (nth j ss dflt)) /\
     (exists v, @q75 F64 (f64_num L) sorter s = Ok v /\ B2R v = B2R (nth (3 * j) ss dflt))).
Proof.
  intros L sorter s xs ss Hc Hs Hcl P So.
  assert (K : forall a n (k : nat), 0 <= a <= 4 -> 0 <= n <= 2 -> a <= 2 ^ n -> xs <> [] -> (IZR (len xs - 1) * IZR a = INR k * IZR (2 ^ n))%R ->
    exists v, @quantile F64 (f64_num L) sorter s (f64_div #a #(2 ^ n)) = Ok v /\ B2R v = B2R (nth k ss dflt)).
  { intros a n k Ha Hn Han Hne Hk; destruct (ratio_B2R a n Ha Hn) as [E F].
    assert (Hp : (1 <= IZR (2 ^ n))%R) by (apply IZR_le; assert (0 < 2 ^ n) by (apply Z.pow_pos_nonneg; lia); lia).
    apply (C145_rank L sorter s xs ss _ k Hc Hs Hne Hcl P So F).
    - rewrite E; apply IZR_le in Han; destruct Ha as [Ha _]; apply IZR_le in Ha; split; [apply Rmult_le_pos; [lra|left; apply Rinv_0_lt_compat; lra]|].
      apply Rmult_le_reg_r with (IZR (2 ^ n)); [lra|]; unfold Rdiv; rewrite Rmult_assoc, Rinv_l by lra; lra.
    - rewrite E; unfold Rdiv; rewrite <- Rmult_assoc, Hk, Rmult_assoc, Rinv_r by lra; ring. }
  split; [|split].
  - intros j Hj; apply (K 1 1 j); try lia; [intros ->; simpl in Hj; lia|].
    unfold len; rewrite Hj, minus_IZR, <- INR_IZR_INZ, plus_INR, mult_INR; cbn [INR]; change (IZR (2 ^ 1)) with 2%R; lra.
  - apply (K 1 2 j); try lia; [intros ->; simpl in H; lia|].
    unfold len; rewrite H, minus_IZR, <- INR_IZR_INZ, plus_INR, mult_INR; cbn [INR]; change (IZR (2 ^ 2)) with 4%R; lra.
  - apply (K 3 2 (3 * j)%nat); try lia; [intros ->; simpl in H; lia|].
    unfold len; rewrite H, minus_IZR, <- INR_IZR_INZ, plus_INR, !mult_INR; cbn [INR]; change (IZR (2 ^ 2)) with 4%R; lra.
Qed.
Print Assumptions C145_median.

(** quartiles, interquartile range and fences *)
Theorem C145_outliers :
  forall (L : Libm) (sorter : Sorter) (s : Serie F64) (r : Serie R) xs m M mu,
  conforms sorter -> repr s 1 (col xs) -> repr r 1 (col (map B2R xs)) -> xs <> [] ->
  Forall (fun x => is_finite x = true /\ (Rabs (B2R x) <= M)%R) xs -> (bpow radix2 (-1000) <= M)%R ->
  is_finite m = true -> (Rabs (B2R m) <= mu)%R -> (1 <= mu)%R -> (mu * M <= bpow radix2 990)%R ->
  exists a b flag,
    @q25 R r_num sorter r = Ok a /\ @q75 R r_num sorter r = Ok b /\
    (exists i, @IQR F64 (f64_num L) sorter s = Ok i /\ is_finite i = true /\ (Rabs (B2R i - (b - a)) <= / 2 ^ 53 * M * (4 * IZR (len xs) + 11))%R) /\
    @outliers F64 (f64_num L) sorter s m = Ok (mk 1 (col (filter flag xs)) 3) /\
    @notOutliers F64 (f64_num L) sorter s m = Ok (mk 1 (col (filter (fun x => negb (flag x)) xs)) 3) /\
    @isOutliers F64 (f64_num L) sorter s m = Ok (mk 1 (col (map (fun x => if flag x then #1 else #0) xs)) 3) /\
    let lo := (a - B2R m * (b - a))%R in let hi := (b + B2R m * (b - a))%R in
    let tol := (/ 2 ^ 53 * (mu * M) * (6 * IZR (len xs) + 22))%R in
    forall x, In x xs -> (tol < Rabs (B2R x - lo))%R -> (tol < Rabs (B2R x - hi))%R -> (flag x = true <-> (B2R x < lo \/ hi < B2R x)%R).
Proof.
  intros L sorter s r xs m M mu Hc Hs Hr Hne HF Hlo Fm Hm Hmu HM.
  pose proof lo_pos as L0; change (bpow radix2 (-1000)) with lo in Hlo.
  assert (M1 : (M <= mu * M)%R) by nra.
  assert (B8 : (1024 * bpow radix2 990 = hi)%R) by (unfold hi; change 1000 with (10 + 990); rewrite bpow_plus; reflexivity).
  assert (HM' : (lo <= M <= bpow radix2 998)%R) by (split; [exact Hlo|]; apply Rle_trans with (1 := M1), Rle_trans with (1 := HM), bpow_le; lia).
  pose proof (len_pos L sorter s xs Hs Hne (close_small xs M HF ltac:(apply Rle_trans with (1 := proj2 HM'), bpow_le; lia)) #0) as Lp.
  set (N := IZR (len xs)) in *; assert (HN : (1 <= N <= 4294967296)%R) by (unfold N; split; apply IZR_le; lia).
  destruct (ratio_B2R 1 2 ltac:(lia) ltac:(lia)) as [E1 F1]; destruct (ratio_B2R 3 2 ltac:(lia) ltac:(lia)) as [E3 F3].
  change (2 ^ 2) with 4 in *.
  destruct (C145_error L sorter s r xs (f64_div #1 #4) M Hc Hs Hr Hne HF HM' F1 ltac:(rewrite E1; lra)) as (u1 & a & Q1 & A1 & G1 & D1).
  destruct (C145_error L sorter s r xs (f64_div #3 #4) M Hc Hs Hr Hne HF HM' F3 ltac:(rewrite E3; lra)) as (u3 & b & Q3 & A3 & G3 & D3).
  rewrite E1 in A1; rewrite E3 in A3; fold N in D1, D3; replace (/ 2 ^ 53)%R with uu in * by (unfold uu; f_equal; ring).
  assert (Ab : (Rabs a <= M)%R /\ (Rabs b <= M)%R).
  { assert (K : forall q e, (0 <= q <= 1)%R -> @quantile R r_num sorter r q = Ok e -> (Rabs e <= M)%R).
    { intros q e Hq Ee; destruct (Hc R (@n_ltb R r_num) (map B2R xs) (r_swo _)) as [P So]; apply sorted_lt_le in So.
      destruct (C70_quantile sorter r (map B2R xs) _ Hc Hr ltac:(intros X; apply map_eq_nil in X; contradiction) P So) as (_ & _ & _ & K).
      destruct (K q Hq) as (v & k & Ev & Hk & _ & Lv & Uv & Kv & _); rewrite Ee in Ev; injection Ev as <-.
      assert (IN : forall i, (i < length (map B2R xs))%nat -> (Rabs (nth i (sorter R (@n_ltb R r_num) (map B2R xs)) 0) <= M)%R).
      { intros i Hi; assert (I : In (nth i (sorter R (@n_ltb R r_num) (map B2R xs)) 0%R) (map B2R xs)) by (eapply Permutation_in; [symmetry; exact P|apply nth_In; rewrite <- (Permutation_length P); exact Hi]).
        apply in_map_iff in I as (x & <- & Hx); apply (proj1 (Forall_forall _ _) HF x Hx). }
      pose proof (IN k Hk) as I1; destruct (Nat.lt_ge_cases (S k) (length (map B2R xs))) as [X|X].
      - pose proof (IN (S k) X) as I2; specialize (Uv X); apply abs_le in I1, I2; apply abs_le; lra.
      - rewrite Kv by lia; exact I1. }
    split; eapply K; try eassumption; lra. }
  destruct Ab as [Aa Ab]; apply abs_le in Aa, Ab.
  assert (U0 : (0 < uu)%R) by (unfold uu; lra).
  set (E := (uu * M * (2 * N + 4))%R) in *.
  assert (UN : (uu * N <= / 1000000)%R) by (unfold uu; lra).
  assert (EM : (0 <= E <= M / 100000)%R) by (unfold E; split; [apply Rmult_le_pos; nra|]; replace (uu * M * (2 * N + 4))%R with (M * (2 * (uu * N) + 4 * uu))%R by ring; assert (uu <= / 1000000)%R by (unfold uu; lra); nra).
  assert (uM : (0 < uu * M)%R) by nra.
  assert (uE : (uu * E <= uu * M / 100000)%R) by nra.
  assert (N1 : nearby u1 a E) by (split; assumption).
  assert (N3 : nearby u3 b E) by (split; assumption).
  assert (NI : nearby (f64_sub u3 u1) (b - a) (uu * M * (4 * N + 11))%R).
  { apply (sub_near u3 u1 b a E E (2 * M + E + E))%R; try assumption; [assert (Rabs (b - a) <= 2 * M)%R by (apply abs_le; lra); lra|lra|].
    replace (uu * M * (4 * N + 11))%R with (2 * E + 3 * (uu * M))%R by (unfold E; ring); lra. }
  set (I := (uu * M * (4 * N + 11))%R) in *.
  assert (IE : I = (2 * E + 3 * (uu * M))%R) by (unfold I, E; ring).
  assert (uM' : (uu * M <= M / 1000000)%R) by (assert (uu <= / 1000000)%R by (unfold uu; lra); nra).
  assert (NP : nearby (f64_mul m (f64_sub u3 u1)) (B2R m * (b - a)) (mu * (I + 3 * (uu * M)))%R).
  { apply (mul_near _ _ (B2R m) (b - a) 0 I mu (2 * M) (mu * (2 * M + I)))%R; try assumption; [apply nearby_self; exact Fm|apply abs_le; lra|lra| |].
    - split; [nra|]; assert (mu * (2 * M + I) <= 3 * (mu * M))%R by nra; lra.
    - replace (mu * (I + 3 * (uu * M)))%R with (mu * I + mu * (3 * (uu * M)))%R by ring.
      assert (uu * (mu * (2 * M + I)) <= mu * (3 * (uu * M)))%R by (replace (uu * (mu * (2 * M + I)))%R with (mu * (uu * (2 * M + I)))%R by ring; apply Rmult_le_compat_l; nra).
      lra. }
  set (Q := (mu * (I + 3 * (uu * M)))%R) in *.
  set (tol := (uu * (mu * M) * (6 * N + 22))%R).
  assert (PM : (Rabs (B2R m * (b - a)) <= mu * (2 * M))%R) by (apply prod_le; [exact Hm|apply abs_le; lra]).
  assert (QM : (0 <= Q <= mu * M / 1000)%R) by (unfold Q; split; [apply Rmult_le_pos; nra|]; unfold Rdiv; rewrite Rmult_assoc; apply Rmult_le_compat_l; lra).
  assert (TB : (E + Q + uu * (4 * (mu * M)) <= tol)%R).
  { unfold tol; replace (uu * (mu * M) * (6 * N + 22))%R with (mu * (uu * M * (2 * N + 4)) + mu * (uu * M * (4 * N + 14)) + 4 * (mu * (uu * M)))%R by ring; fold E.
    replace Q with (mu * (uu * M * (4 * N + 14)))%R by (unfold Q, I; ring); assert (E <= mu * E)%R by nra; lra. }
  assert (NL : nearby (f64_sub u1 (f64_mul m (f64_sub u3 u1))) (a - B2R m * (b - a)) tol).
  { apply (sub_near _ _ a (B2R m * (b - a)) E Q (4 * (mu * M)))%R; try assumption; [|lra].
    assert (Rabs (a - B2R m * (b - a)) <= M + mu * (2 * M))%R by (apply abs_le in PM; apply abs_le; lra); lra. }
  assert (NH : nearby (f64_add u3 (f64_mul m (f64_sub u3 u1))) (b + B2R m * (b - a)) tol).
  { apply (add_near _ _ b (B2R m * (b - a)) E Q (4 * (mu * M)))%R; try assumption; [|lra].
    assert (Rabs (b + B2R m * (b - a)) <= M + mu * (2 * M))%R by (apply abs_le in PM; apply abs_le; lra); lra. }
  set (Lo := f64_sub u1 (f64_mul m (f64_sub u3 u1))) in *; set (Hi := f64_add u3 (f64_mul m (f64_sub u3 u1))) in *.
  assert (FE : @fences F64 (f64_num L) sorter s m = Ok (Lo, Hi)).
  { unfold fences, q25, q75, n_ratio; cbn [n_div n_of_Z n_sub n_add n_mul f64_num]; rewrite Q1, Q3; reflexivity. }
  destruct (C72_mask_and_items F64 (f64_num L) sorter s xs m Lo Hi Hs FE) as (O1 & O2 & O3).
  exists a, b, (fun x => Bltb x Lo || Bltb Hi x).
  split; [unfold q25, n_ratio; cbn [n_div n_of_Z r_num]; exact A1|]; split; [unfold q75, n_ratio; cbn [n_div n_of_Z r_num]; exact A3|].
  split; [exists (f64_sub u3 u1); split; [unfold IQR, n_ratio; cbn [n_div n_of_Z n_sub f64_num]; rewrite Q1, Q3; reflexivity|exact NI]|].
  split; [exact O1|]; destruct NL as [FL NL], NH as [FH NH]; rewrite Forall_forall in HF; split; [|split; [exact O2|]].
  - rewrite O3; do 3 f_equal; apply filter_ext_in; intros x Hx; destruct (HF x Hx) as [Fx _]; cbn [n_leb f64_num].
    destruct (Bltb x Lo) eqn:X1; destruct (Bleb Lo x) eqn:X2; destruct (Bltb Hi x) eqn:X3; destruct (Bleb x Hi) eqn:X4; try reflexivity; exfalso;
    repeat match goal with
    | H : Bltb ?y ?z = true |- _ => apply lt_ok in H; [|assumption|assumption]
    | H : Bleb ?y ?z = true |- _ => apply le_ok in H; [|assumption|assumption]
    | H : Bltb ?y ?z = false |- _ => rewrite <- Bool.not_true_iff_false, lt_ok in H by assumption
    | H : Bleb ?y ?z = false |- _ => rewrite <- Bool.not_true_iff_false, le_ok in H by assumption
    end; lra.
  - intros lo' hi' tol' x Hx T1 T2; destruct (HF x Hx) as [Fx _]; rewrite orb_true_iff, !lt_ok by assumption.
    change tol' with tol in *; clearbody tol; subst lo' hi'; apply abs_le in NL, NH.
    set (l := (a - B2R m * (b - a))%R) in *; set (h := (b + B2R m * (b - a))%R) in *; clearbody l h.
    assert (T1' : (B2R x - l < - tol \/ tol < B2R x - l)%R) by (unfold Rabs in T1; destruct (Rcase_abs _); lra).
    assert (T2' : (B2R x - h < - tol \/ tol < B2R x - h)%R) by (unfold Rabs in T2; destruct (Rcase_abs _); lra).
    lra.
Qed.
Print Assumptions C145_outliers.

(** the k-th of n values is not always the quantile at the double k / (n - 1): 49 * (1 / 49) rounds to less than 1 *)
Theorem C145_rank_refuted :
  exists (s : Serie F64) xs, repr s 1 (col xs) /\ fsorted xs /\ len xs = 50 /\
  exists v, @quantile F64 F64N insertion_sorter s (f64_div #1 #49) = Ok v /\ Bltb v (nth 1 xs dflt) = true.
Proof.
  exists (mk 1 (col (map f64_of_Z (seqZ 0 50))) 3), (map f64_of_Z (seqZ 0 50)); split; [|split; [|split]].
  - apply repr_col_mk; unfold len; rewrite map_length; unfold seqZ; rewrite map_length, seq_length; lia.
  - unfold fsorted; assert (K : forall a n, (a + n <= 100)%nat -> StronglySorted (fun x y : F64 => (B2R x <= B2R y)%R) (map f64_of_Z (seqZ a n))).
    { intros a n; revert a; induction n as [|n IH]; intros a H; [constructor|]; cbn [seqZ seq map]; constructor; [apply (IH (S a)); lia|].
      rewrite Forall_map, Forall_map; apply Forall_forall; intros j Hj; apply in_seq in Hj.
      destruct (f64_of_Z_correct (Z.of_nat a) ltac:(lia)) as (A & _), (f64_of_Z_correct (Z.of_nat j) ltac:(lia)) as (B & _); rewrite A, B; apply IZR_le; lia. }
    apply (K 0%nat 50%nat); lia.
  - reflexivity.
  - assert (K : match @quantile F64 F64N insertion_sorter (mk 1 (col (map f64_of_Z (seqZ 0 50))) 3) (f64_div #1 #49) with Ok v => Bltb v (nth 1 (map f64_of_Z (seqZ 0 50)) dflt) | _ => false end = true) by (vm_compute; reflexivity).
    destruct (@quantile F64 F64N insertion_sorter _ _) as [v| |] in K |- *; [exists v; split; [reflexivity|exact K]|discriminate K|discriminate K].
Qed.
Print Assumptions C145_rank_refuted.

(** five values and their quartiles; 100 is an outlier far from the fences *)
Example C145_example : let xs := [#3; #1; #100; #2; #4] in
  conforms insertion_sorter /\ repr (mk 1 (col xs) 3) 1 (col xs) /\ close xs /\ length xs = (4 * 1 + 1)%nat /\
  Permutation xs [#1; #2; #3; #4; #100] /\ fsorted [#1; #2; #3; #4; #100] /\
  Forall (fun x => is_finite x = true /\ (Rabs (B2R x) <= 100)%R) xs /\ (bpow radix2 (-1000) <= 100)%R /\ (2 * 100 <= bpow radix2 990)%R /\
  match @q25 F64 F64N insertion_sorter (mk 1 (col xs) 3), @q75 F64 F64N insertion_sorter (mk 1 (col xs) 3), @outliers F64 F64N insertion_sorter (mk 1 (col xs) 3) (f64_div #3 #2) with
  | Ok a, Ok b, Ok o => Beqb a #2 && Beqb b #4 && match s_ o with [x] => Beqb x #100 | _ => false end
  | _, _, _ => false end = true.
Proof.
  intros xs; split; [exact insertion_sorter_conforms|]; split; [repr_ex|].
  destruct (f64_of_Z_correct 1 ltac:(lia)) as (A1 & F1 & _); destruct (f64_of_Z_correct 2 ltac:(lia)) as (A2 & F2 & _); destruct (f64_of_Z_correct 3 ltac:(lia)) as (A3 & F3 & _);
  destruct (f64_of_Z_correct 4 ltac:(lia)) as (A4 & F4 & _); destruct (f64_of_Z_correct 100 ltac:(lia)) as (A5 & F5 & _).
  assert (HF : Forall (fun x => is_finite x = true /\ (Rabs (B2R x) <= 100)%R) xs).
  { repeat first [apply Forall_cons | apply Forall_nil]; (split; [assumption|]); rewrite ?A1, ?A2, ?A3, ?A4, ?A5, Rabs_pos_eq; lra. }
  assert (B : (128 <= bpow radix2 990)%R) by (change 128%R with (bpow radix2 7); apply bpow_le; lia).
  assert (B' : (256 <= bpow radix2 990)%R) by (change 256%R with (bpow radix2 8); apply bpow_le; lia).
  split; [apply (close_small xs 100); [exact HF|]; apply Rle_trans with (bpow radix2 990); [lra|apply bpow_le; lia]|].
  split; [reflexivity|]; split; [|split; [|split; [exact HF|split; [|split]]]].
  - apply Permutation_sym; apply (Permutation_cons_app [#3] [#100; #2; #4] #1); cbn [app].
    apply (Permutation_cons_app [#3; #100] [#4] #2); cbn [app]; apply perm_skip, perm_swap.
  - repeat first [apply SSorted_cons | apply SSorted_nil | apply Forall_cons | apply Forall_nil]; rewrite ?A1, ?A2, ?A3, ?A4, ?A5; apply IZR_le; lia.
  - destruct lo_hi as (_ & X & _); unfold lo in X; lra.
  - lra.
  - vm_compute; reflexivity.
Qed.
