(** * C135: bins in binary64. *)
From Coq Require Import Reals Lra.
From Flocq Require Import Core IEEE754.BinarySingleNaN.
From Verif Require Import Base Num Serie Spec BaseFacts SerieFacts Functional FunctionalFacts Utils Mathf MathFacts MinMaxFacts Stats StatsFacts.
From Verif Require Import F64 F64Facts OrderFacts F64Round F64Error Props_Functional Props_MinMax Props_Bins.
Open Scope Z_scope.
Opaque f64_of_Z.

(** [std::trunc] on a number that is not negative *)
Lemma trunc_floor (x : F64) : is_finite x = true -> (0 <= B2R x)%R ->
  is_finite (Bnearbyint mode_ZR x) = true /\ Btrunc (Bnearbyint mode_ZR x) = Zfloor (B2R x).
Proof.
  intros F H; destruct (Bnearbyint_correct 53 1024 F64_emax mode_ZR x) as (A & B & _); split; [rewrite B; exact F|].
  apply trunc_ok; rewrite A; unfold round, F2R, scaled_mantissa, cexp, FIX_exp; cbn [Fnum Fexp Z.opp bpow round_mode]; rewrite !Rmult_1_r.
  rewrite Ztrunc_floor by exact H; reflexivity.
Qed.

(** [v] is at most a 2^-50th part of the range outside the i-th of [nb] intervals of [a, b) (the last one has no upper end) *)
Definition within_bin (a b : R) (nb i : Z) (v : R) : Prop :=
  let size := ((b - a) / IZR nb)%R in let m := ((b - a) / 1125899906842624)%R in
  (a + IZR i * size - m <= v)%R /\ (i = nb - 1 \/ (v < a + IZR (i + 1) * size + m)%R).
(** ... and more than that inside (no margin at the outer ends) *)
Definition well_inside (a b : R) (nb i : Z) (v : R) : Prop :=
  let size := ((b - a) / IZR nb)%R in let m := ((b - a) / 1125899906842624)%R in
  (i = 0 \/ (a + IZR i * size + m <= v)%R) /\ (i = nb - 1 \/ (v < a + IZR (i + 1) * size - m)%R).

Section Position.
  Variables (start stop : F64) (nb : Z).
  Hypothesis Hn : 1 <= nb < 4294967296.
  Hypothesis Fa : is_finite start = true.
  Hypothesis Fb : is_finite stop = true.
  Hypothesis Fd : is_finite (f64_sub stop start) = true.
  Let W := (B2R stop - B2R start)%R.
  Hypothesis HW : (bpow radix2 (-960) <= W)%R.
  Let size := f64_div (f64_sub stop start) (f64_of_Z nb).
  Let q (v : F64) := f64_div (f64_sub v start) size.
  Let x (v : F64) := (IZR nb * ((B2R v - B2R start) / W))%R.
  Let nbR := IZR nb.

  Lemma nb_real : (1 <= nbR <= 4294967295)%R.
  Proof. split; apply IZR_le; lia. Qed.
  Lemma W_pos : (0 < W)%R.
  Proof. pose proof (bpow_gt_0 radix2 (-960)); lra. Qed.

  Lemma width_ok : B2R (f64_sub stop start) = rnd W /\ exists e, (Rabs e <= uu)%R /\ rnd W = (W * (1 + e))%R.
  Proof.
    split; [|apply diff_relative].
    apply sub_ok; try assumption; apply sub_finite; assumption.
  Qed.
  Lemma size_ok : is_finite size = true /\ exists e1 e2, (Rabs e1 <= uu)%R /\ (Rabs e2 <= uu)%R /\ rnd W = (W * (1 + e1))%R /\ B2R size = (W * (1 + e1) / nbR * (1 + e2))%R.
  Proof.
    destruct width_ok as (E & e1 & H1 & E1); destruct (f64_of_Z_correct nb ltac:(lia)) as (A & _); fold nbR in A.
    pose proof nb_real as N; pose proof W_pos as Wp.
    assert (U : (uu = / 9007199254740992)%R) by (unfold uu; reflexivity).
    assert (H1' := H1); apply abs_le in H1'.
    assert (Dp : (0 < W * (1 + e1))%R) by (apply Rmult_lt_0_compat; lra).
    set (D := (W * (1 + e1))%R) in *.
    assert (Q : (0 < D / nbR <= D)%R).
    { split; [apply Rdiv_lt_0_compat; lra|]; apply Rmult_le_reg_r with nbR; [lra|]; unfold Rdiv; rewrite Rmult_assoc, Rinv_l by lra; nra. }
    destruct (div_ok (f64_sub stop start) (f64_of_Z nb) Fd) as [Es Fs].
    { rewrite A; lra. }
    { rewrite A, E, E1; fold D; apply (range_abs (f64_sub stop start)); rewrite E, E1; fold D; rewrite !Rabs_pos_eq by lra; lra. }
    fold size in Es, Fs; split; [exact Fs|]; rewrite A, E, E1 in Es; fold D in Es.
    assert (Lo : (lo <= D / nbR)%R).
    { assert (Wl : (bpow radix2 (-961) <= D)%R).
      { unfold D; replace (-961) with (-960 + -1) by lia; rewrite bpow_plus; change (bpow radix2 (-1)) with (/ 2)%R; pose proof (bpow_gt_0 radix2 (-960)); nra. }
      apply Rmult_le_reg_r with nbR; [lra|]; unfold Rdiv; rewrite Rmult_assoc, Rinv_l, Rmult_1_r by lra.
      apply Rle_trans with (lo * bpow radix2 32)%R.
      - apply Rmult_le_compat_l; [apply bpow_ge_0|]; change (bpow radix2 32) with (IZR 4294967296); lra.
      - unfold lo; rewrite <- bpow_plus; apply Rle_trans with (2 := Wl); apply bpow_le; lia. }
    pose proof (rnd_err (D / nbR) (D / nbR) ltac:(rewrite Rabs_pos_eq; lra) Lo) as R; rewrite <- Es in R.
    exists e1, ((B2R size - D / nbR) / (D / nbR))%R; split; [exact H1|]; split.
    { unfold Rdiv at 1; rewrite Rabs_mult, Rabs_inv, (Rabs_pos_eq (D / nbR)) by lra; apply Rmult_le_reg_r with (D / nbR)%R; [lra|].
      rewrite Rmult_assoc, Rinv_l by lra; lra. }
    split; [exact E1|]; fold D; generalize dependent (D / nbR)%R; intros t Q _ _ _; field; lra.
  Qed.

  Section Value.
    Variable v : F64.
    Hypothesis Fv : is_finite v = true.
    Hypothesis Hv : (B2R start <= B2R v <= B2R stop)%R.

    Lemma x_range : (0 <= x v <= nbR)%R.
    Proof.
      pose proof nb_real; pose proof W_pos; unfold x; fold nbR.
      assert (0 <= (B2R v - B2R start) / W <= 1)%R.
      { split; [apply Rmult_le_pos; [lra|left; apply Rinv_0_lt_compat; lra]|].
        apply Rmult_le_reg_r with W; [lra|]; unfold Rdiv; rewrite Rmult_assoc, Rinv_l by lra; unfold W; lra. }
      nra.
    Qed.
    Lemma dist_ok : is_finite (f64_sub v start) = true /\ B2R (f64_sub v start) = rnd (B2R v - B2R start) /\ (0 <= rnd (B2R v - B2R start) <= rnd W)%R.
    Proof.
      destruct width_ok as (E & _).
      assert (R : (0 <= rnd (B2R v - B2R start) <= rnd W)%R).
      { split; [rewrite <- rnd_0; apply rnd_le; lra|apply rnd_le; unfold W; lra]. }
      destruct (sub_ok v start Fv Fa) as [A B]; [|auto].
      pose proof (sub_finite stop start Fb Fa Fd) as I; fold W in I; unfold in_range in *; rewrite Rabs_pos_eq in *; lra.
    Qed.
    (** the computed quotient and the exact one *)
    Lemma q_ok : is_finite (q v) = true /\ (0 <= B2R (q v) < nbR + 1)%R /\ (Rabs (B2R (q v) - x v) <= / 1125899906842624 * nbR)%R.
    Proof.
      destruct dist_ok as (F & E & R); destruct size_ok as (Fs & e1 & e2 & H1 & H2 & E1 & Es).
      destruct (diff_relative v start) as (e3 & H3 & E3).
      pose proof nb_real as N; pose proof W_pos as Wp; pose proof x_range as X.
      assert (U : (uu = / 9007199254740992)%R) by (unfold uu; reflexivity).
      apply abs_le in H1, H2, H3.
      assert (Sp : (0 < B2R size)%R).
      { rewrite Es; apply Rmult_lt_0_compat; [apply Rdiv_lt_0_compat; [apply Rmult_lt_0_compat|]|]; lra. }
      set (z := ((1 + e3) / ((1 + e1) * (1 + e2)))%R).
      assert (Q : (rnd (B2R v - B2R start) / B2R size = x v * z)%R).
      { rewrite E3, Es; unfold x, z; fold nbR; field; repeat split; lra. }
      assert (Zr : (Rabs (z - 1) <= 4 * uu)%R).
      { assert (P : (0 < (1 + e1) * (1 + e2))%R) by (apply Rmult_lt_0_compat; lra).
        apply abs_le; split; unfold z; (apply Rmult_le_reg_r with ((1 + e1) * (1 + e2))%R; [exact P|]).
        - replace (((1 + e3) / ((1 + e1) * (1 + e2)) - 1) * ((1 + e1) * (1 + e2)))%R with (1 + e3 - (1 + e1) * (1 + e2))%R by (field; lra).
          rewrite U in *; nra.
        - replace (((1 + e3) / ((1 + e1) * (1 + e2)) - 1) * ((1 + e1) * (1 + e2)))%R with (1 + e3 - (1 + e1) * (1 + e2))%R by (field; lra).
          rewrite U in *; nra. }
      apply abs_le in Zr.
      assert (B : (0 <= x v * z <= nbR * (1 + 4 * uu))%R) by (rewrite U in *; split; [apply Rmult_le_pos; lra|]; apply Rmult_le_compat; lra).
      pose proof (rnd_err (x v * z) (nbR * (1 + 4 * uu)) ltac:(rewrite Rabs_pos_eq; lra)) as Er.
      assert (Lo : (lo <= nbR * (1 + 4 * uu))%R).
      { apply Rle_trans with 1%R; [apply lo_hi|]; rewrite U; lra. }
      specialize (Er Lo); apply abs_le in Er.
      destruct (div_ok (f64_sub v start) size F) as [Eq Fq].
      { lra. }
      { rewrite E, Q; apply small_range; rewrite Rabs_pos_eq by lra; apply Rle_trans with (bpow radix2 40); [change (bpow radix2 40) with 1099511627776%R; rewrite U in *; lra|apply bpow_le; lia]. }
      rewrite E, Q in Eq; fold (q v) in Eq, Fq; split; [exact Fq|]; rewrite Eq.
      assert (Z4 : (Rabs (x v * z - x v) <= nbR * (4 * uu))%R).
      { replace (x v * z - x v)%R with (x v * (z - 1))%R by ring; apply prod_le; apply abs_le; lra. }
      apply abs_le in Z4; rewrite U in *; split.
      - split; [rewrite <- rnd_0; apply rnd_le; lra|lra].
      - apply abs_le; lra.
    Qed.
    Lemma raw_ok L : @bin_of F64 (f64_num L) start size v = Ok (Zfloor (B2R (q v))).
    Proof.
      destruct q_ok as (F & R & _); destruct (trunc_floor (q v) F ltac:(lra)) as [Ft Et].
      unfold bin_of, n_to_u32; cbn [n_to_Z n_trunc n_div n_sub f64_num]; fold (q v); rewrite Ft, Et.
      assert (0 <= Zfloor (B2R (q v))) by (apply Zfloor_lub; lra).
      assert (Zfloor (B2R (q v)) < nb + 1) by (apply lt_IZR; rewrite plus_IZR; fold nbR; pose proof (Zfloor_lb (B2R (q v))); lra).
      replace ((0 <=? Zfloor (B2R (q v))) && (Zfloor (B2R (q v)) <? two32)) with true; [reflexivity|].
      symmetry; apply andb_true_intro; split; [apply Z.leb_le|apply Z.ltb_lt; unfold two32]; lia.
    Qed.
  End Value.

  Lemma q_mono v w : is_finite v = true -> is_finite w = true -> (B2R start <= B2R v)%R -> (B2R v <= B2R w)%R -> (B2R w <= B2R stop)%R -> (B2R (q v) <= B2R (q w))%R.
  Proof.
    intros Fv Fw H1 H2 H3.
    destruct (dist_ok v Fv ltac:(lra)) as (F & E & R); destruct (dist_ok w Fw ltac:(lra)) as (F' & E' & R').
    destruct size_ok as (Fs & e1 & e2 & G1 & G2 & E1 & Es); pose proof nb_real as N; pose proof W_pos as Wp.
    assert (U : (uu = / 9007199254740992)%R) by (unfold uu; reflexivity); apply abs_le in G1, G2.
    assert (Sp : (0 < B2R size)%R).
    { rewrite Es; apply Rmult_lt_0_compat; [apply Rdiv_lt_0_compat; [apply Rmult_lt_0_compat|]|]; lra. }
    assert (Le : (B2R (f64_sub v start) / B2R size <= B2R (f64_sub w start) / B2R size)%R).
    { rewrite E, E'; apply Rmult_le_compat_r; [left; apply Rinv_0_lt_compat; exact Sp|apply rnd_le; lra]. }
    assert (In : forall u, is_finite u = true -> (B2R start <= B2R u <= B2R stop)%R -> B2R (q u) = rnd (B2R (f64_sub u start) / B2R size)).
    { intros u Fu Hu; destruct (q_ok u Fu Hu) as (Fq & _); destruct (dist_ok u Fu Hu) as (Fx & Ex & Rx).
      apply div_ok; [exact Fx|lra|].
      assert (B : (0 <= B2R (f64_sub u start) / B2R size <= 8589934592)%R).
      { rewrite Ex; split; [apply Rmult_le_pos; [lra|left; apply Rinv_0_lt_compat; exact Sp]|].
        apply Rmult_le_reg_r with (B2R size); [exact Sp|]; unfold Rdiv; rewrite Rmult_assoc, Rinv_l, Rmult_1_r by lra.
        apply Rle_trans with (rnd W); [lra|]; rewrite E1, Es; set (D := (W * (1 + e1))%R).
        assert (0 < D)%R by (apply Rmult_lt_0_compat; lra).
        replace (8589934592 * (D / nbR * (1 + e2)))%R with (D * (8589934592 * (1 + e2) / nbR))%R by (field; lra).
        rewrite <- (Rmult_1_r D) at 1; apply Rmult_le_compat_l; [lra|].
        apply Rmult_le_reg_r with nbR; [lra|]; unfold Rdiv; rewrite Rmult_assoc, Rinv_l by lra; rewrite U in *; lra. }
      apply small_range; rewrite Rabs_pos_eq by lra; apply Rle_trans with (bpow radix2 40); [change (bpow radix2 40) with 1099511627776%R; lra|apply bpow_le; lia]. }
    rewrite !In by (try assumption; lra); apply rnd_le; exact Le.
  Qed.

  Let bin (v : F64) : Z := clamp nb (Zfloor (B2R (q v))).
  Lemma x_place v i : (B2R start + IZR i * (W / nbR) - B2R v = (IZR i - x v) * (W / nbR))%R.
  Proof. pose proof nb_real; pose proof W_pos; unfold x; fold nbR; field; lra. Qed.
  Lemma bin_facts v : is_finite v = true -> (B2R start <= B2R v <= B2R stop)%R ->
    0 <= bin v < nb /\ (B2R v = B2R start -> bin v = 0) /\ (B2R v = B2R stop -> bin v = nb - 1) /\
    within_bin (B2R start) (B2R stop) nb (bin v) (B2R v) /\
    (forall i, 0 <= i < nb -> well_inside (B2R start) (B2R stop) nb i (B2R v) -> bin v = i).
  Proof.
    intros Fv Hv; destruct (q_ok v Fv Hv) as (_ & R & D); apply abs_le in D; pose proof nb_real as N; pose proof W_pos as Wp; pose proof (x_range v Hv) as X.
    pose proof (Zfloor_lb (B2R (q v))) as Lb; pose proof (Zfloor_ub (B2R (q v))) as Ub; set (f := Zfloor (B2R (q v))) in *.
    assert (F0 : 0 <= f) by (apply Zfloor_lub; lra).
    assert (F1 : f <= nb) by (assert (f < nb + 1); [apply lt_IZR; rewrite plus_IZR; fold nbR; lra|lia]).
    assert (Ps : (0 < W / nbR)%R) by (apply Rdiv_lt_0_compat; lra).
    assert (M : (W / 1125899906842624 = / 1125899906842624 * nbR * (W / nbR))%R) by (field; lra).
    assert (Bn : (IZR nb = nbR)%R) by reflexivity.
    unfold bin; fold f; unfold clamp; split; [lia|]; split; [|split; [|split]].
    - intros E; assert (X0 : x v = 0%R) by (unfold x; rewrite E; unfold Rdiv; rewrite Rminus_diag_eq by reflexivity; ring).
      assert (f < 1); [|lia]; apply lt_IZR; lra.
    - intros E; assert (X0 : x v = nbR) by (unfold x; fold nbR; rewrite E; fold W; field; lra).
      assert (nb - 1 < f + 1); [|lia]; apply lt_IZR; rewrite minus_IZR, plus_IZR; lra.
    - unfold within_bin; cbv zeta; fold W nbR; rewrite M; split.
      + assert (IZR (Z.min f (nb - 1)) <= IZR f)%R by (apply IZR_le; lia).
        pose proof (x_place v (Z.min f (nb - 1))) as P; assert ((IZR (Z.min f (nb - 1)) - x v) * (W / nbR) <= / 1125899906842624 * nbR * (W / nbR))%R by (apply Rmult_le_compat_r; lra); lra.
      + destruct (Z.le_gt_cases (nb - 1) f); [left; lia|right]; rewrite Z.min_l by lia.
        pose proof (x_place v (f + 1)) as P; rewrite plus_IZR in *.
        assert ((x v - (IZR f + 1)) * (W / nbR) < / 1125899906842624 * nbR * (W / nbR))%R by (apply Rmult_lt_compat_r; lra); lra.
    - intros i Hi [A B]; cbv zeta in A, B; fold W nbR in A, B; rewrite M in A, B.
      assert (A' : i <= f).
      { destruct A as [->|A]; [exact F0|]; apply Zfloor_lub; pose proof (x_place v i) as P.
        assert (/ 1125899906842624 * nbR <= x v - IZR i)%R; [apply Rmult_le_reg_r with (W / nbR)%R; [exact Ps|lra]|lra]. }
      destruct B as [->|B]; [lia|].
      assert (f < i + 1); [|lia]; apply lt_IZR; pose proof (x_place v (i + 1)) as P.
      assert (/ 1125899906842624 * nbR < IZR (i + 1) - x v)%R; [apply Rmult_lt_reg_r with (W / nbR)%R; [exact Ps|lra]|lra].
  Qed.
  Lemma bin_mono v w : is_finite v = true -> is_finite w = true -> (B2R start <= B2R v)%R -> (B2R v <= B2R w)%R -> (B2R w <= B2R stop)%R -> bin v <= bin w.
  Proof.
    intros; unfold bin, clamp; assert (Zfloor (B2R (q v)) <= Zfloor (B2R (q w))); [|lia].
    apply Zfloor_le, q_mono; assumption.
  Qed.
  Lemma bins_position L (s : Serie F64) xs : repr s 1 (col xs) -> (forall v, In v xs -> is_finite v = true /\ (B2R start <= B2R v <= B2R stop)%R) ->
    @bins_between F64 (f64_num L) s nb start stop = Ok (mk 1 (col (map (fun i => f64_of_Z (count_if (fun v => bin v =? i) xs)) (iota nb))) 3).
  Proof.
    intros Hs Hv.
    destruct (@bins_between_counts F64 (f64_num L) (f64_counters L) s xs nb start stop (fun v => Zfloor (B2R (q v))) Hs Hn) as (cnt & E & Lc & _ & Nt).
    { intros v Iv; destruct (Hv v Iv) as [Fv Hr]; apply (raw_ok v Fv Hr). }
    rewrite E; cbn [n_of_Z f64_num].
    assert (Q : cnt = map (fun i => count_if (fun v => bin v =? i) xs) (iota nb)); [|rewrite Q, map_map; reflexivity].
    apply nth_ext with (d := 0) (d' := 0); [rewrite map_length; pose proof (len_iota nb ltac:(lia)); unfold len in *; lia|].
    intros m Hm; assert (Hm' : 0 <= Z.of_nat m < nb) by (unfold len in Lc; lia).
    specialize (Nt (Z.of_nat m) Hm'); rewrite Nat2Z.id in Nt; rewrite Nt; symmetry; apply nth_error_nth.
    rewrite nth_error_map, (iota_seqZ nb), nth_error_seqZ by lia; reflexivity.
  Qed.
End Position.

(** ** the bin of every value, to a margin of 2^-50 of the range *)
Theorem C135_bins :
  forall (L : Libm) (s : Serie F64) xs nb start stop,
  repr s 1 (col xs) -> 1 <= nb < 4294967296 ->
  is_finite start = true -> is_finite stop = true -> is_finite (f64_sub stop start) = true -> (bpow radix2 (-960) <= B2R stop - B2R start)%R ->
  (forall v, In v xs -> is_finite v = true /\ (B2R start <= B2R v <= B2R stop)%R) ->
  exists bin : F64 -> Z,
    @bins_between F64 (f64_num L) s nb start stop = Ok (mk 1 (col (map (fun i => f64_of_Z (count_if (fun v => bin v =? i) xs)) (iota nb))) 3) /\
    (forall v w, In v xs -> In w xs -> (B2R v <= B2R w)%R -> bin v <= bin w) /\
    forall v, In v xs ->
      0 <= bin v < nb /\ (B2R v = B2R start -> bin v = 0) /\ (B2R v = B2R stop -> bin v = nb - 1) /\
      within_bin (B2R start) (B2R stop) nb (bin v) (B2R v) /\
      (forall i, 0 <= i < nb -> well_inside (B2R start) (B2R stop) nb i (B2R v) -> bin v = i).
Proof.
  intros L s xs nb start stop Hs Hn Fa Fb Fd HW Hv; eexists; split; [apply bins_position; eassumption|]; split.
  - intros v w Iv Iw H; destruct (Hv v Iv), (Hv w Iw); apply bin_mono; try assumption; lra.
  - intros v Iv; destruct (Hv v Iv); apply bin_facts; assumption.
Qed.
Print Assumptions C135_bins.

(** ** between the smallest and the largest value *)
Theorem C135_bins_of_range :
  forall (L : Libm) (s : Serie F64) xs nb,
  repr s 1 (col xs) -> 1 <= nb < 4294967296 -> Forall (fun x => is_finite x = true) xs ->
  (exists x y, In x xs /\ In y xs /\ (bpow radix2 (-960) <= B2R y - B2R x)%R) ->
  (forall x y, In x xs -> In y xs -> is_finite (f64_sub y x) = true) ->
  exists (lo hi : F64) (bin : F64 -> Z),
    In lo xs /\ In hi xs /\ (forall v, In v xs -> (B2R lo <= B2R v <= B2R hi)%R) /\
    @bins F64 (f64_num L) s nb = Ok (mk 1 (col (map (fun i => f64_of_Z (count_if (fun v => bin v =? i) xs)) (iota nb))) 3) /\
    (forall v w, In v xs -> In w xs -> (B2R v <= B2R w)%R -> bin v <= bin w) /\
    forall v, In v xs ->
      0 <= bin v < nb /\ (B2R v = B2R lo -> bin v = 0) /\ (B2R v = B2R hi -> bin v = nb - 1) /\
      within_bin (B2R lo) (B2R hi) nb (bin v) (B2R v) /\
      (forall i, 0 <= i < nb -> well_inside (B2R lo) (B2R hi) nb i (B2R v) -> bin v = i).
Proof.
  intros L s xs nb Hs Hn Hf (a & b & Ia & Ib & Hab) Hd.
  assert (Hne : xs <> []) by (intros ->; destruct Ia).
  destruct (C62_scalar L s xs Hs Hne Hf) as (lo & hi & E & Ilo & Ihi & Hr); rewrite Forall_forall in Hf.
  assert (Hv : forall v, In v xs -> is_finite v = true /\ (B2R lo <= B2R v <= B2R hi)%R).
  { intros v Iv; destruct (Hr v Iv) as [H1 H2]; split; [apply Hf; exact Iv|]; split; apply le_ok; auto. }
  destruct (Hv a Ia) as [_ Ra], (Hv b Ib) as [_ Rb].
  destruct (C135_bins L s xs nb lo hi Hs Hn (Hf _ Ilo) (Hf _ Ihi) (Hd _ _ Ilo Ihi) ltac:(lra) Hv) as (bin & E' & M & F).
  exists lo, hi, bin; split; [exact Ilo|]; split; [exact Ihi|]; split; [intros v Iv; apply (Hv v Iv)|].
  split; [unfold bins; rewrite E; exact E'|]; split; assumption.
Qed.
Print Assumptions C135_bins_of_range.

(** ** the exact intervals are not those of the doubles: of 0, 9 and 18 in 14 bins, 9 starts the bin 7 and is counted in the bin 6 *)
Theorem C135_exact_refuted :
  exists (s : Serie F64) xs nb lo hi v i,
  repr s 1 (col xs) /\ In lo xs /\ In hi xs /\ In v xs /\ (forall x, In x xs -> is_finite x = true /\ (B2R lo <= B2R x <= B2R hi)%R) /\
  0 <= i < nb /\ in_bin (B2R lo) (B2R hi) nb i (B2R v) = true /\
  forall L, exists r, @bins F64 (f64_num L) s nb = Ok r /\ map B2SF (s_ r) = map B2SF (map f64_of_Z [1; 0; 0; 0; 0; 0; 1; 0; 0; 0; 0; 0; 0; 1]) /\ i = 7.
Proof.
  exists (mk 1 (col [#0; #9; #18]) 3), [#0; #9; #18], 14, #0, #18, #9, 7.
  destruct (f64_of_Z_correct 0 ltac:(lia)) as (A0 & F0 & _); destruct (f64_of_Z_correct 9 ltac:(lia)) as (A9 & F9 & _); destruct (f64_of_Z_correct 18 ltac:(lia)) as (A18 & F18 & _).
  split; [repr_ex|]; split; [left; reflexivity|]; split; [right; right; left; reflexivity|]; split; [right; left; reflexivity|].
  split; [intros x [<-|[<-|[<-|[]]]]; (split; [assumption|]); rewrite ?A0, ?A9, ?A18; lra|]; split; [lia|]; split.
  - rewrite A0, A9, A18; unfold in_bin; change (7 =? 14 - 1) with false; cbn [orb]; rewrite Rle_bool_true, Rlt_bool_true; [reflexivity| |]; change (7 + 1) with 8; lra.
  - intros L; destruct (@bins F64 (f64_num L) (mk 1 (col [#0; #9; #18]) 3) 14) as [r| |] eqn:E; [|exfalso|exfalso].
    + exists r; split; [reflexivity|]; split; [|reflexivity].
      transitivity (match @bins F64 (f64_num L) (mk 1 (col [#0; #9; #18]) 3) 14 with Ok r => map B2SF (s_ r) | _ => [] end); [rewrite E; reflexivity|]; vm_compute; reflexivity.
    + assert (C : match @bins F64 (f64_num L) (mk 1 (col [#0; #9; #18]) 3) 14 with Ok _ => true | _ => false end = true) by (vm_compute; reflexivity); rewrite E in C; discriminate C.
    + assert (C : match @bins F64 (f64_num L) (mk 1 (col [#0; #9; #18]) 3) 14 with Ok _ => true | _ => false end = true) by (vm_compute; reflexivity); rewrite E in C; discriminate C.
Qed.
Print Assumptions C135_exact_refuted.

(** ** a Serie of equal values has no bins: 0 / 0 is converted to an integer *)
Lemma finite_zero (x : F64) : is_finite x = true -> B2R x = 0%R -> exists b, x = B754_zero b.
Proof.
  destruct x as [b|b| |b m e H]; intros F E; try discriminate; [exists b; reflexivity|exfalso].
  cbn [B2R] in E; apply eq_0_F2R in E; destruct b; discriminate.
Qed.
Theorem C135_constant :
  forall (L : Libm) (s : Serie F64) xs nb,
  repr s 1 (col xs) -> 1 <= nb < 4294967296 -> xs <> [] -> Forall (fun x => is_finite x = true) xs -> (forall x y, In x xs -> In y xs -> B2R x = B2R y) ->
  @bins F64 (f64_num L) s nb = UB.
Proof.
  intros L s xs nb Hs Hn Hne Hf He.
  destruct (C62_scalar L s xs Hs Hne Hf) as (lo & hi & E & Ilo & Ihi & _); rewrite Forall_forall in Hf; unfold bins; rewrite E; cbn [obind].
  change (rd (fst ([lo], [hi])) 0) with (Ok lo); change (rd (snd ([lo], [hi])) 0) with (Ok hi); cbn [obind].
  assert (Zd : forall x y, In x xs -> In y xs -> exists b, f64_sub x y = B754_zero b).
  { intros x y Ix Iy; pose proof (He x y Ix Iy) as Exy.
    destruct (sub_ok x y (Hf x Ix) (Hf y Iy)) as [A B]; [rewrite Exy, Rminus_diag_eq by reflexivity; unfold in_range; rewrite rnd_0, Rabs_R0; apply bpow_gt_0|].
    apply finite_zero; [exact B|]; rewrite A, Exy, Rminus_diag_eq by reflexivity; apply rnd_0. }
  apply (@bins_between_ub F64 (f64_num L) (f64_counters L) s xs nb lo hi Hs Hn); intros H; destruct (H lo Ilo) as [j Ej]; revert Ej.
  unfold bin_of; cbn [n_div n_sub n_of_Z n_trunc f64_num].
  destruct (Zd hi lo Ihi Ilo) as [b1 ->], (Zd lo lo Ilo Ilo) as [b2 ->].
  destruct (f64_of_Z_correct nb ltac:(lia)) as (An & Fn & _).
  destruct (f64_of_Z nb) as [b|b| |b m e Hb]; try discriminate Fn.
  - cbn [B2R] in An; assert (0 < IZR nb)%R by (apply IZR_lt; lia); lra.
  - unfold n_to_u32; cbn; destruct b1, b2, b; discriminate.
Qed.
Print Assumptions C135_constant.

(** ** two different finite values are not enough: the width of a bin underflows to zero, or the range overflows *)
Definition tiny : F64 := @B754_finite 53 1024 false 1 (-1074) eq_refl.
Definition huge : F64 := @B754_finite 53 1024 false 9007199254740991 971 eq_refl.
Theorem C135_any_range_refuted :
  (exists (s : Serie F64) xs, repr s 1 (col xs) /\ Forall (fun x => is_finite x = true) xs /\ (exists x y, In x xs /\ In y xs /\ (B2R x < B2R y)%R /\ is_finite (f64_sub y x) = true) /\
    forall L, @bins F64 (f64_num L) s 4 = UB) /\
  (exists (s : Serie F64) xs, repr s 1 (col xs) /\ Forall (fun x => is_finite x = true) xs /\ (exists x y, In x xs /\ In y xs /\ (bpow radix2 (-960) <= B2R y - B2R x)%R) /\
    forall L, @bins F64 (f64_num L) s 4 = UB).
Proof.
  assert (P : (0 < B2R tiny)%R) by (apply F2R_gt_0; reflexivity).
  assert (Ph : (bpow radix2 0 <= B2R huge)%R).
  { apply (Rle_trans _ (F2R (Float radix2 1 971))); [unfold F2R; cbn [Fnum Fexp]; rewrite Rmult_1_l; apply bpow_le; lia|apply F2R_le; cbn; lia]. }
  split.
  - exists (mk 1 (col [B754_zero false; tiny]) 3), [B754_zero false; tiny]; split; [repr_ex|]; split; [repeat constructor|]; split.
    + exists (B754_zero false), tiny; split; [left; reflexivity|]; split; [right; left; reflexivity|]; split; [exact P|reflexivity].
    + intros L; vm_compute; reflexivity.
  - exists (mk 1 (col [Bopp huge; huge]) 3), [Bopp huge; huge]; split; [repr_ex|]; split; [repeat constructor|]; split.
    + exists (Bopp huge), huge; split; [left; reflexivity|]; split; [right; left; reflexivity|].
      rewrite B2R_Bopp; assert (bpow radix2 (-960) <= bpow radix2 0)%R by (apply bpow_le; lia); pose proof (bpow_ge_0 radix2 0); lra.
    + intros L; vm_compute; reflexivity.
Qed.
Print Assumptions C135_any_range_refuted.

(** the hypotheses are met: 1, 2, 3, 10 in three bins *)
Example C135_ex :
  let xs := [#3; #1; #10; #2] in
  repr (mk 1 (col xs) 3) 1 (col xs) /\ Forall (fun x => is_finite x = true) xs /\
  (exists x y, In x xs /\ In y xs /\ (bpow radix2 (-960) <= B2R y - B2R x)%R) /\
  (forall x y, In x xs -> In y xs -> is_finite (f64_sub y x) = true) /\
  well_inside (B2R #1) (B2R #10) 3 0 (B2R #2) /\ well_inside (B2R #1) (B2R #10) 3 2 (B2R #10) /\
  match @bins F64 F64N (mk 1 (col xs) 3) 3 with Ok r => map B2SF (s_ r) | _ => [] end = map B2SF (map f64_of_Z [3; 0; 1]).
Proof.
  cbv zeta; destruct (f64_of_Z_correct 1 ltac:(lia)) as (A1 & F1 & _); destruct (f64_of_Z_correct 2 ltac:(lia)) as (A2 & F2 & _);
    destruct (f64_of_Z_correct 3 ltac:(lia)) as (A3 & F3 & _); destruct (f64_of_Z_correct 10 ltac:(lia)) as (A10 & F10 & _).
  split; [repr_ex|]; split; [repeat (constructor; [assumption|]); constructor|]; split.
  { exists #1, #10; split; [right; left; reflexivity|]; split; [right; right; left; reflexivity|].
    rewrite A1, A10; assert (bpow radix2 (-960) <= bpow radix2 0)%R by (apply bpow_le; lia); change (bpow radix2 0) with 1%R in *; lra. }
  split; [intros x y [<-|[<-|[<-|[<-|[]]]]] [<-|[<-|[<-|[<-|[]]]]]; vm_compute; reflexivity|].
  split; [unfold well_inside; cbv zeta; rewrite A1, A2, A10; split; [left; reflexivity|right; change (0 + 1) with 1; lra]|].
  split; [unfold well_inside; cbv zeta; rewrite A1, A10; split; [right; lra|left; reflexivity]|].
  vm_compute; reflexivity.
Qed.
