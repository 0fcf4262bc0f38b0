(** * C117, C118: grids of points and fringes in binary64. *)
From Verif Require Import Base Num Serie Spec BaseFacts SerieFacts Functional FunctionalFacts Utils Mathf MathFacts Views Algebra AlgebraFacts Geo ViewFacts.
From Verif Require Import MinMaxFacts F64 F64Facts F64Arith F64Round F64Sum Props_Functional Props_F64Int Props_Grid.
From Flocq Require Import Core IEEE754.BinarySingleNaN.
From Coq Require Import Reals Lra Psatz.
Open Scope Z_scope.
Opaque f64_of_Z.

(** ** C117 *)
(** the coordinate of index i *)
Definition knot (base step : F64) (i : nat) : F64 := f64_add base (f64_mul #(Z.of_nat i) step).
Definition step_of (n : nat) (extent : F64) : F64 := if 1 <? Z.of_nat n then f64_div extent #(Z.of_nat n - 1) else #0.

Lemma from_points_f64 (L : Libm) npts a0 a1 a2 b0 b1 b2 : good_npts npts ->
  exists rows, @from_points F64 (f64_num L) npts [a0; a1; a2] [b0; b1; b2] = Ok (mk 3 rows 3) /\
    x_fastest (pts npts 0) (pts npts 1) (pts npts 2)
      (knot a0 (step_of (pts npts 0) (f64_sub b0 a0))) (knot a1 (step_of (pts npts 1) (f64_sub b1 a1))) (knot a2 (step_of (pts npts 2) (f64_sub b2 a2))) rows.
Proof.
  intros G; destruct (total_points_ok npts G) as (Et & Er & Hm); pose proof G as (Hl & Hf & Hp).
  unfold from_points; destruct (Z.eqb_spec (len npts) 0); [lia|]; destruct (Z.ltb_spec 3 (len npts)); [lia|]; cbn [orb].
  change (negb (len [a0; a1; a2] =? 3) || negb (len [b0; b1; b2] =? 3))%bool with false; cbv iota zeta.
  rewrite (@spacings_ok F64 (f64_num L) npts _ (fun d => f64_sub (nth d [b0; b1; b2] #0) (nth d [a0; a1; a2] #0))); [|exact G|intros d Hd; destruct d as [|[|[|?]]]; try lia; reflexivity].
  cbn [map seq obind nth]; rewrite Et, Er.
  apply fill_grid_ok; [|exact Hm]; intros i j k Hi Hj Hk; reflexivity.
Qed.
Lemma from_dims_f64 (L : Libm) npts c0 c1 c2 e0 e1 e2 : good_npts npts ->
  exists rows, @from_dims F64 (f64_num L) npts [c0; c1; c2] [e0; e1; e2] = Ok (mk 3 rows 3) /\
    x_fastest (pts npts 0) (pts npts 1) (pts npts 2)
      (knot (f64_sub c0 (f64_div e0 #2)) (step_of (pts npts 0) e0)) (knot (f64_sub c1 (f64_div e1 #2)) (step_of (pts npts 1) e1)) (knot (f64_sub c2 (f64_div e2 #2)) (step_of (pts npts 2) e2)) rows.
Proof.
  intros G; destruct (total_points_ok npts G) as (Et & Er & Hm); pose proof G as (Hl & Hf & Hp).
  unfold from_dims; destruct (Z.eqb_spec (len npts) 0); [lia|]; destruct (Z.ltb_spec 3 (len npts)); [lia|]; cbn [orb].
  change (negb (len [c0; c1; c2] =? 3) || negb (len [e0; e1; e2] =? 3))%bool with false; cbv iota zeta.
  rewrite (@spacings_ok F64 (f64_num L) npts (rd [e0; e1; e2]) (fun d => nth d [e0; e1; e2] #0)); [|exact G|intros d Hd; destruct d as [|[|[|?]]]; try lia; reflexivity].
  cbn [map seq obind nth]; rewrite Et, Er.
  apply fill_grid_ok; [|exact Hm]; intros i j k Hi Hj Hk; reflexivity.
Qed.

Open Scope R_scope.
Lemma of_nat_real i : (Z.of_nat i <= 2 ^ 53)%Z -> is_real #(Z.of_nat i) (INR i).
Proof. intros H; destruct (f64_of_Z_correct (Z.of_nat i) ltac:(lia)) as (E & F & _); split; [exact F|rewrite E, INR_IZR_INZ; reflexivity]. Qed.
Lemma knot_first base step : is_finite base = true -> is_finite step = true -> is_real (knot base step 0) (B2R base).
Proof.
  intros Fb Fs; unfold knot; destruct (of_nat_real 0 ltac:(lia)) as [F0 E0]; cbn [INR] in E0.
  destruct (mul_ok #(Z.of_nat 0) step F0 Fs) as [E F]; [rewrite E0, Rmult_0_l; apply (int_range 0); lia|].
  rewrite E0, Rmult_0_l, rnd_0 in E.
  destruct (add_ok base (f64_mul #(Z.of_nat 0) step) Fb F) as [E' F']; [rewrite E, Rplus_0_r; apply (range_abs base); lra|].
  split; [exact F'|]; rewrite E', E, Rplus_0_r; apply rnd_B2R.
Qed.
Lemma knot_steps base step i : (Z.of_nat i <= 2 ^ 53)%Z -> is_finite (knot base step i) = true ->
  is_finite base = true /\ is_finite step = true /\ B2R (knot base step i) = rnd (B2R base + rnd (INR i * B2R step)).
Proof.
  intros Hi F; unfold knot in *; destruct (add_inv _ _ F) as [Fb Fm]; destruct (mul_inv _ _ Fm) as [Fi Fs].
  destruct (of_nat_real i Hi) as [_ Ei].
  split; [exact Fb|split; [exact Fs|]].
  destruct (mul_ok _ _ Fi Fs (mul_finite _ _ Fm)) as [Em _]; destruct (add_ok _ _ Fb Fm (add_finite _ _ Fb Fm F)) as [Ea _].
  rewrite Ea, Em, Ei; reflexivity.
Qed.
Lemma knot_mono base step i j : (i <= j)%nat -> (Z.of_nat j <= 2 ^ 53)%Z -> is_finite (knot base step i) = true -> is_finite (knot base step j) = true ->
  (0 <= B2R step -> B2R (knot base step i) <= B2R (knot base step j)) /\ (B2R step <= 0 -> B2R (knot base step j) <= B2R (knot base step i)).
Proof.
  intros Hij Hj Fi Fj; destruct (knot_steps base step i ltac:(lia) Fi) as (_ & _ & Ei); destruct (knot_steps base step j Hj Fj) as (_ & _ & Ej).
  pose proof (le_INR _ _ Hij) as Hr; rewrite Ei, Ej; split; intros Hs; apply rnd_le, Rplus_le_compat_l, rnd_le; nra.
Qed.
(** the step has the sign of the extent *)
Lemma step_facts n extent : (1 <= n)%nat -> (Z.of_nat n <= 2 ^ 53)%Z -> is_finite extent = true ->
  is_finite (step_of n extent) = true /\ (0 <= B2R extent -> 0 <= B2R (step_of n extent)) /\ (B2R extent <= 0 -> B2R (step_of n extent) <= 0) /\
  ((2 <= n)%nat -> exists e h, Rabs e <= uu /\ Rabs h <= eta /\ B2R (step_of n extent) = B2R extent / INR (n - 1) * (1 + e) + h) /\ (n = 1%nat -> B2R (step_of n extent) = 0).
Proof.
  intros Hn Hb F; unfold step_of; destruct (Z.ltb_spec 1 (Z.of_nat n)).
  - destruct (of_nat_real (n - 1) ltac:(lia)) as [Fn En]; replace (Z.of_nat (n - 1)) with (Z.of_nat n - 1)%Z in * by lia.
    assert (P : 1 <= INR (n - 1)) by (apply (le_INR 1); lia).
    assert (I : 0 < / INR (n - 1) <= 1).
    { split; [apply Rinv_0_lt_compat; lra|rewrite <- Rinv_1; apply Rinv_le_contravar; lra]. }
    assert (N : B2R #(Z.of_nat n - 1) <> 0) by (rewrite En; lra).
    destruct (div_ok extent #(Z.of_nat n - 1) F N) as [Ed Fd].
    { apply (range_abs extent); rewrite En; unfold Rdiv; rewrite Rabs_mult, (Rabs_pos_eq (/ _)) by lra.
      pose proof (Rabs_pos (B2R extent)); nra. }
    split; [exact Fd|]; rewrite En in Ed; split; [|split; [|split; [|lia]]].
    + intros H0; rewrite Ed, <- rnd_0; apply rnd_le; unfold Rdiv; nra.
    + intros H0; rewrite Ed, <- rnd_0; apply rnd_le; unfold Rdiv; nra.
    + intros _; rewrite Ed; apply rnd_err.
  - assert (n = 1%nat) as -> by lia; destruct zero_B2R as [E0 F0]; rewrite E0; split; [exact F0|]; split; [lra|split; [lra|split; [lia|reflexivity]]].
Qed.
(** distance from the exact grid over an extent which is itself rounded *)
Lemma knot_err base extent n i : (2 <= n)%nat -> (Z.of_nat n <= 2 ^ 53)%Z -> (i < n)%nat -> is_finite extent = true -> is_finite (knot base (step_of n extent) i) = true ->
  Rabs (B2R (knot base (step_of n extent) i) - (B2R base + INR i * (B2R extent / INR (n - 1))))
  <= uu * Rabs (B2R base) + growth 3 * Rabs (INR i * (B2R extent / INR (n - 1))) + (INR i + 1) * (1 + uu) ^ 2 * eta.
Proof.
  intros Hn Hb Hi Fe F; destruct (knot_steps base _ i ltac:(lia) F) as (_ & _ & E).
  destruct (step_facts n extent ltac:(lia) Hb Fe) as (_ & _ & _ & S & _); destruct (S Hn) as (e1 & h1 & B1 & H1 & S1); clear S; rename S1 into S.
  unfold knot in *; destruct (add_inv _ _ F) as [Fb Fm].
  destruct (add_err _ _ F) as (e3 & B3 & E3); destruct (mul_err _ _ Fm) as (e2 & h2 & B2 & H2 & E2).
  rewrite (proj2 (of_nat_real i ltac:(lia))) in E2; rewrite E3, E2, S; clear E E3 E2 S.
  set (q := B2R extent / INR (n - 1)); set (b := B2R base).
  replace ((b + (INR i * (q * (1 + e1) + h1) * (1 + e2) + h2)) * (1 + e3) - (b + INR i * q))
    with (b * e3 + INR i * q * ((1 + e1) * (1 + e2) * (1 + e3) - 1) + (INR i * h1 * ((1 + e2) * (1 + e3)) + h2 * (1 + e3))) by ring.
  pose proof uu_pos as U; pose proof eta_pos as T; pose proof (pos_INR i) as Pi.
  assert (U1 : uu <= 1) by (unfold uu; change 1 with (bpow radix2 0); apply bpow_le; lia).
  apply Rabs_le_inv in B1, B2, B3, H1, H2.
  assert (K3 : Rabs (1 + e3) <= 1 + uu) by (apply Rabs_le; lra).
  assert (K2 : Rabs (1 + e2) <= 1 + uu) by (apply Rabs_le; lra).
  assert (K23 : Rabs ((1 + e2) * (1 + e3)) <= (1 + uu) ^ 2) by (rewrite Rabs_mult; cbn [pow]; rewrite Rmult_1_r; apply Rmult_le_compat; auto using Rabs_pos).
  assert (G : Rabs ((1 + e1) * (1 + e2) * (1 + e3) - 1) <= growth 3).
  { unfold growth; cbn [pow]; rewrite Rmult_1_r.
    assert (G2 : (1 - uu) * (1 - uu) <= (1 + e1) * (1 + e2) <= (1 + uu) * (1 + uu)) by (split; apply Rmult_le_compat; lra).
    apply Rabs_le; split; [|assert ((1 + e1) * (1 + e2) * (1 + e3) <= (1 + uu) * (1 + uu) * (1 + uu)) by (apply Rmult_le_compat; nra); lra].
    assert ((1 - uu) * (1 - uu) * (1 - uu) <= (1 + e1) * (1 + e2) * (1 + e3)) by (apply Rmult_le_compat; nra); nra. }
  eapply Rle_trans; [apply Rabs_triang|]; apply Rplus_le_compat; [eapply Rle_trans; [apply Rabs_triang|]; apply Rplus_le_compat|].
  - rewrite Rabs_mult, Rmult_comm; apply Rmult_le_compat_r; [apply Rabs_pos|apply Rabs_le; lra].
  - rewrite Rabs_mult, Rmult_comm; apply Rmult_le_compat_r; [apply Rabs_pos|exact G].
  - eapply Rle_trans; [apply Rabs_triang|]; replace ((INR i + 1) * (1 + uu) ^ 2 * eta) with (INR i * eta * (1 + uu) ^ 2 + eta * (1 + uu) ^ 2) by ring.
    apply Rplus_le_compat; rewrite Rabs_mult.
    + apply Rmult_le_compat; auto using Rabs_pos; rewrite Rabs_mult, (Rabs_pos_eq (INR i)) by exact Pi; apply Rmult_le_compat_l; [exact Pi|apply Rabs_le; lra].
    + apply Rmult_le_compat; auto using Rabs_pos; [apply Rabs_le; lra|]; cbn [pow]; nra.
Qed.

(** what a coordinate of the grid satisfies: [X 0] is the base, the values are in order, each near the exact one *)
Definition grid_axis (n : nat) (base extent : F64) (X : nat -> F64) : Prop :=
  is_real (X 0%nat) (B2R base) /\
  (forall i j, (i <= j < n)%nat -> is_finite (X i) = true -> is_finite (X j) = true ->
     (0 <= B2R extent -> B2R (X i) <= B2R (X j)) /\ (B2R extent <= 0 -> B2R (X j) <= B2R (X i))) /\
  (forall i, (i < n)%nat -> (2 <= n)%nat -> is_finite (X i) = true ->
     Rabs (B2R (X i) - (B2R base + INR i * (B2R extent / INR (n - 1))))
     <= uu * Rabs (B2R base) + growth 3 * Rabs (INR i * (B2R extent / INR (n - 1))) + (INR i + 1) * (1 + uu) ^ 2 * eta).
Lemma knot_axis n base extent : (1 <= n)%nat -> (Z.of_nat n <= 2 ^ 53)%Z -> is_finite base = true -> is_finite extent = true ->
  grid_axis n base extent (knot base (step_of n extent)).
Proof.
  intros Hn Hb Fb Fe; destruct (step_facts n extent Hn Hb Fe) as (Fs & S1 & S2 & _); split; [apply knot_first; assumption|split].
  - intros i j Hij Fi Fj; destruct (knot_mono base (step_of n extent) i j ltac:(lia) ltac:(lia) Fi Fj) as [M1 M2]; split; auto.
  - intros i Hi H2 Fi; apply knot_err; auto.
Qed.
Lemma pts_bound npts d : good_npts npts -> (Z.of_nat (pts npts d) <= 2 ^ 53)%Z.
Proof.
  intros (_ & H & _); unfold pts; destruct (nth_in_or_default d npts 1%Z) as [I|E]; [|rewrite E; lia].
  rewrite Forall_forall in H; specialize (H _ I); lia.
Qed.
Open Scope Z_scope.
Theorem C117_from_points_partial :
  forall (L : Libm) (npts : list Z) (p1 p2 : list F64),
  good_npts npts -> len p1 = 3 -> len p2 = 3 -> (forall d, (d < 3)%nat -> (1 <= pts npts d)%nat) ->
  (forall d, (d < 3)%nat -> is_finite (nth d p1 #0) = true /\ is_finite (f64_sub (nth d p2 #0) (nth d p1 #0)) = true) ->
  exists rows X Y Z, @from_points F64 (f64_num L) npts p1 p2 = Ok (mk 3 rows 3) /\
    x_fastest (pts npts 0) (pts npts 1) (pts npts 2) X Y Z rows /\
    Forall2 (fun d W => grid_axis (pts npts d) (nth d p1 #0) (f64_sub (nth d p2 #0) (nth d p1 #0)) W) [0; 1; 2]%nat [X; Y; Z].
Proof.
  intros L npts p1 p2 G L1 L2 Hp Hf.
  destruct (len3 p1 L1) as (a0 & a1 & a2 & ->); destruct (len3 p2 L2) as (b0 & b1 & b2 & ->).
  destruct (from_points_f64 L npts a0 a1 a2 b0 b1 b2 G) as (rows & E & F); exists rows; do 3 eexists; split; [exact E|split; [exact F|]].
  repeat apply Forall2_cons; try apply Forall2_nil; cbn [nth]; apply knot_axis; auto using pts_bound;
    first [apply (Hf 0%nat); lia | apply (Hf 1%nat); lia | apply (Hf 2%nat); lia].
Qed.
Print Assumptions C117_from_points_partial.
Theorem C117_from_dims_partial :
  forall (L : Libm) (npts : list Z) (center dims : list F64),
  good_npts npts -> len center = 3 -> len dims = 3 -> (forall d, (d < 3)%nat -> (1 <= pts npts d)%nat) ->
  (forall d, (d < 3)%nat -> is_finite (nth d dims #0) = true /\ is_finite (f64_sub (nth d center #0) (f64_div (nth d dims #0) #2)) = true) ->
  exists rows X Y Z, @from_dims F64 (f64_num L) npts center dims = Ok (mk 3 rows 3) /\
    x_fastest (pts npts 0) (pts npts 1) (pts npts 2) X Y Z rows /\
    Forall2 (fun d W => grid_axis (pts npts d) (f64_sub (nth d center #0) (f64_div (nth d dims #0) #2)) (nth d dims #0) W) [0; 1; 2]%nat [X; Y; Z].
Proof.
  intros L npts p1 p2 G L1 L2 Hp Hf.
  destruct (len3 p1 L1) as (a0 & a1 & a2 & ->); destruct (len3 p2 L2) as (b0 & b1 & b2 & ->).
  destruct (from_dims_f64 L npts a0 a1 a2 b0 b1 b2 G) as (rows & E & F); exists rows; do 3 eexists; split; [exact E|split; [exact F|]].
  repeat apply Forall2_cons; try apply Forall2_nil; cbn [nth]; apply knot_axis; auto using pts_bound;
    first [apply (Hf 0%nat); lia | apply (Hf 1%nat); lia | apply (Hf 2%nat); lia].
Qed.
Print Assumptions C117_from_dims_partial.

(** the last point is not p2: beyond it with 8 points from 0 to 29, before it with 12 points from 0 to 15 *)
Theorem C117_last_refuted :
  (exists (npts : list Z) (p1 p2 : list F64) rows row, good_npts npts /\ len p1 = 3 /\ len p2 = 3 /\
    @from_points F64 F64N npts p1 p2 = Ok (mk 3 rows 3) /\ nth_error rows (pts npts 0 - 1) = Some row /\ is_finite (nth 0 row #0) = true /\
    (B2R (nth 0 p2 #0) < B2R (nth 0 row #0))%R) /\
  (exists (npts : list Z) (p1 p2 : list F64) rows row, good_npts npts /\ len p1 = 3 /\ len p2 = 3 /\
    @from_points F64 F64N npts p1 p2 = Ok (mk 3 rows 3) /\ nth_error rows (pts npts 0 - 1) = Some row /\ is_finite (nth 0 row #0) = true /\
    (B2R (nth 0 row #0) < B2R (nth 0 p2 #0))%R).
Proof.
  split.
  - assert (G : good_npts [8]) by (split; [cbv; split; discriminate|split; [repeat constructor; lia|reflexivity]]).
    destruct (from_points_f64 libm0 [8] #0 #0 #0 #29 #0 #0 G) as (rows & E & L & X).
    specialize (X 7%nat 0%nat 0%nat ltac:(cbv; lia) ltac:(cbv; lia) ltac:(cbv; lia)).
    exists [8], [#0; #0; #0], [#29; #0; #0], rows; eexists; split; [exact G|split; [reflexivity|split; [reflexivity|split; [exact E|split; [exact X|]]]]].
    cbn [nth]; change (pts [8] 0) with 8%nat.
    assert (F : is_finite (knot #0 (step_of 8 (f64_sub #29 #0)) 7) = true) by (vm_compute; reflexivity).
    split; [exact F|]; apply (lt_ok #29 _ ltac:(vm_compute; reflexivity) F); vm_compute; reflexivity.
  - assert (G : good_npts [12]) by (split; [cbv; split; discriminate|split; [repeat constructor; lia|reflexivity]]).
    destruct (from_points_f64 libm0 [12] #0 #0 #0 #15 #0 #0 G) as (rows & E & L & X).
    specialize (X 11%nat 0%nat 0%nat ltac:(cbv; lia) ltac:(cbv; lia) ltac:(cbv; lia)).
    exists [12], [#0; #0; #0], [#15; #0; #0], rows; eexists; split; [exact G|split; [reflexivity|split; [reflexivity|split; [exact E|split; [exact X|]]]]].
    cbn [nth]; change (pts [12] 0) with 12%nat.
    assert (F : is_finite (knot #0 (step_of 12 (f64_sub #15 #0)) 11) = true) by (vm_compute; reflexivity).
    split; [exact F|]; apply (lt_ok _ #15 F ltac:(vm_compute; reflexivity)); vm_compute; reflexivity.
Qed.
Print Assumptions C117_last_refuted.
Example C117_ex : good_npts [8; 3] /\ (forall d, (d < 3)%nat -> (1 <= pts [8; 3]%Z d)%nat) /\
  (forall d, (d < 3)%nat -> is_finite (nth d [#1; #2; #3] #0) = true /\ is_finite (f64_sub (nth d [#4; #5; #6] #0) (nth d [#1; #2; #3] #0)) = true).
Proof.
  split; [split; [cbv; split; discriminate|split; [repeat constructor; lia|reflexivity]]|].
  split; [intros [|[|[|d]]] H; try lia; cbv; lia|]; intros [|[|[|d]]] H; try lia; split; vm_compute; reflexivity.
Qed.

(** ** C118: fringes *)
Lemma fringes_f64 (L : Libm) (s : Serie F64) xs w : repr s 1 (col xs) -> xs <> [] ->
  @fringes F64 (f64_num L) s w = Ok (mk 1 (col (map (fun x => let q := f64_div x w in Babs (f64_mul w (f64_sub q (Bnearbyint mode_DN q)))) xs)) 3).
Proof.
  intros Hs Hne; unfold fringes; rewrite (isValid_repr _ _ _ Hs), (repr_itemSize _ _ _ Hs); cbn [Z.ltb Z.compare Z.eqb Pos.eqb negb orb].
  set (h := fun x => let q := f64_div x w in Babs (f64_mul w (f64_sub q (Bnearbyint mode_DN q)))).
  replace (col (map h xs)) with (map (fun r => [h (hd #0 r)]) (col xs)) by (unfold col; rewrite !map_map; reflexivity).
  apply (@map_rows_ok F64 (f64_num L) s 1 (col xs) (fun v => let* x := rd v 0 in Ok [n_abs (n_mul w (frac (n_div x w)))]) (fun r => [h (hd #0 r)]) 1 Hs); [destruct xs; [congruence|discriminate]|lia|].
  intros r Hr; apply in_map_iff in Hr; destruct Hr as (x & <- & _); split; reflexivity.
Qed.
Open Scope R_scope.
Lemma frac_within (q : F64) : is_finite q = true ->
  is_finite (f64_sub q (Bnearbyint mode_DN q)) = true /\ 0 <= B2R (f64_sub q (Bnearbyint mode_DN q)) <= 1 /\
  (0 <= B2R q -> B2R (f64_sub q (Bnearbyint mode_DN q)) = B2R q - IZR (Zfloor (B2R q)) /\ B2R (f64_sub q (Bnearbyint mode_DN q)) < 1).
Proof.
  intros F; destruct (floor_ok q F) as [Ef Ff]; pose proof (Zfloor_lb (B2R q)) as Lb; pose proof (Zfloor_ub (B2R q)) as Ub.
  destruct (f64_of_Z_correct 1 ltac:(lia)) as (E1 & F1 & _); destruct zero_B2R as [E0 _].
  assert (B : B2R #0 <= B2R q - B2R (Bnearbyint mode_DN q) <= B2R #1) by (rewrite Ef, E0, E1; lra).
  destruct (sub_ok q (Bnearbyint mode_DN q) F Ff (range_between _ _ _ B)) as [Es Fs].
  split; [exact Fs|]; rewrite Es; split; [pose proof (rnd_between _ _ _ B) as R; rewrite E0, E1 in R; exact R|].
  intros H; rewrite Ef; rewrite (rnd_fmt _ (frac_fmt _ (fmt_B2R q) H)); split; [reflexivity|lra].
Qed.
Theorem C118_fringes_partial :
  forall (L : Libm) (s : Serie F64) ds w, repr s 1 (col ds) -> ds <> [] -> is_finite w = true ->
  exists fs, @fringes F64 (f64_num L) s w = Ok (mk 1 (col fs) 3) /\
    Forall2 (fun d f => is_finite (f64_div d w) = true -> is_finite f = true /\ 0 <= B2R f <= Rabs (B2R w)) ds fs.
Proof.
  intros L s ds w Hs Hne Fw; eexists; split; [exact (fringes_f64 L s ds w Hs Hne)|]; clear Hs Hne.
  induction ds as [|d ds IH]; cbn [map]; constructor; [|exact IH]; intros Fq; cbv zeta.
  destruct (frac_within (f64_div d w) Fq) as (Ff & Bf & _); set (c := f64_sub (f64_div d w) _) in *.
  assert (A : Rabs (B2R w * B2R c) <= Rabs (B2R w)) by (rewrite Rabs_mult, (Rabs_pos_eq (B2R c)) by lra; pose proof (Rabs_pos (B2R w)); nra).
  destruct (mul_ok w c Fw Ff (range_abs w _ A)) as [Em Fm].
  rewrite is_finite_Babs, B2R_Babs; split; [exact Fm|]; split; [apply Rabs_pos|]; rewrite Em.
  apply abs_round_le_generic; [exact fexp_valid|apply valid_rnd_N|apply generic_format_abs, fmt_B2R|exact A].
Qed.
Print Assumptions C118_fringes_partial.

(** the spacing itself is reached: a displacement of -2^-60 with a spacing of 1 gives 1 *)
Theorem C118_below_refuted :
  exists (s : Serie F64) d w f, repr s 1 (col [d]) /\ is_finite d = true /\ @fringes F64 F64N s w = Ok (mk 1 (col [f]) 3) /\
  is_finite (f64_div d w) = true /\ B2R w = 1 /\ B2R f = 1.
Proof.
  set (d := f64_div #(-1) #(2 ^ 60)); exists (mk 1 (col [d]) 3), d, #1; eexists.
  split; [repr_ex|]; split; [vm_compute; reflexivity|]; split; [apply (fringes_f64 libm0 _ [d] #1); [repr_ex|discriminate]|].
  split; [vm_compute; reflexivity|]; destruct (f64_of_Z_correct 1 ltac:(lia)) as (E1 & F1 & _); split; [exact E1|]; cbv zeta.
  set (f := Babs _); assert (Ff : is_finite f = true) by (vm_compute; reflexivity).
  assert (Q : Beqb f #1 = true) by (vm_compute; reflexivity).
  rewrite (Beqb_correct 53 1024 _ _ Ff F1) in Q; destruct (Req_bool_spec (B2R f) (B2R #1)) as [H|]; [rewrite H; exact E1|discriminate].
Qed.
Print Assumptions C118_below_refuted.
Lemma nan_is (x : F64) : is_nan x = true -> x = B754_nan.
Proof. destruct x; try discriminate; reflexivity. Qed.
(** a finite displacement, a non-zero finite spacing, and no number: the quotient is too large *)
Theorem C118_number_refuted :
  exists (s : Serie F64) d w, repr s 1 (col [d]) /\ is_finite d = true /\ is_finite w = true /\ B2R w <> 0 /\
  @fringes F64 F64N s w = Ok (mk 1 (col [B754_nan]) 3).
Proof.
  set (d := f64_of_Z (2 ^ 1000)); set (w := f64_div #1 #(2 ^ 100)); exists (mk 1 (col [d]) 3), d, w.
  split; [repr_ex|]; split; [vm_compute; reflexivity|]; split; [vm_compute; reflexivity|]; split.
  - assert (F : is_finite w = true) by (vm_compute; reflexivity); destruct zero_B2R as [E0 F0].
    assert (Q : Bltb #0 w = true) by (vm_compute; reflexivity); apply (lt_ok _ _ F0 F) in Q; lra.
  - rewrite (fringes_f64 libm0 _ [d] w); [|repr_ex|discriminate]; cbn [map]; cbv zeta.
    rewrite (nan_is (Babs _)); [reflexivity|vm_compute; reflexivity].
Qed.
Print Assumptions C118_number_refuted.
Example C118_ex : exists fs, @fringes F64 F64N (mk 1 (col [#7; #(-1)]) 3) #3 = Ok (mk 1 (col fs) 3) /\ is_finite (f64_div #7 #3) = true /\
  forallb (fun p => Beqb (fst p) (snd p)) (combine fs [f64_mul #3 (f64_sub (f64_div #7 #3) #2); #2]) = true.
Proof. eexists; split; [apply (fringes_f64 libm0 _ [#7; #(-1)] #3); [repr_ex|discriminate]|split; vm_compute; reflexivity]. Qed.
