(** * C62 - C65: minMax, normalize. *)
From Verif Require Import Base Num Serie Spec BaseFacts SerieFacts Functional FunctionalFacts Mathf MathFacts Utils.
From Verif Require Import F64 F64Facts F64Arith OrderFacts MinMaxFacts RNum Props_Functional.
From Flocq Require Import Core IEEE754.BinarySingleNaN.
From Coq Require Import Reals Lra Psatz.
Open Scope Z_scope.
#[local] Existing Instance F64N.
Opaque f64_of_Z.

(** ** DBL_MAX *)
Lemma f64_dblmax_correct b :
  let z := (if b : bool then -1 else 1) * ((2 ^ 53 - 1) * 2 ^ 971) in
  is_finite (f64_of_Z z) = true /\ B2R (f64_of_Z z) = IZR z.
Proof.
  cbv zeta; set (z := (if b then -1 else 1) * _).
  pose proof (binary_normalize_correct 53 1024 F64_prec F64_emax mode_NE z 0 false) as H.
  assert (E : F2R (Float radix2 z 0) = IZR z) by (unfold F2R; simpl; ring).
  rewrite E in H; unfold round_mode in H.
  change (round radix2 (SpecFloat.fexp 53 1024) ZnearestE (IZR z)) with (rnd (IZR z)) in H.
  assert (Fz : IZR z = F2R (Float radix2 ((if b then -1 else 1) * (2 ^ 53 - 1)) 971)).
  { unfold F2R; cbn [Fnum Fexp]. rewrite <- (IZR_Zpower radix2 971) by lia; rewrite <- mult_IZR; apply f_equal.
    unfold z; rewrite Z.mul_assoc; reflexivity. }
  assert (G : fmt (IZR z)).
  { apply (generic_format_FLT radix2 (SpecFloat.emin 53 1024) 53).
    exists (Float radix2 ((if b then -1 else 1) * (2 ^ 53 - 1)) 971); [exact Fz| |unfold SpecFloat.emin; simpl; lia].
    cbn [Fnum]; destruct b; reflexivity. }
  assert (Lz : (Rabs (IZR z) < bpow radix2 1024)%R).
  { rewrite <- abs_IZR, <- (IZR_Zpower radix2 1024) by lia; apply IZR_lt; unfold z; destruct b; reflexivity. }
  rewrite (round_generic _ _ _ _ G), Rlt_bool_true in H by exact Lz.
  destruct H as (H1 & H2 & _); split; [exact H2|exact H1].
Qed.
Lemma dblmax_value L : is_finite (@n_dblmax F64 (f64_num L)) = true /\
  B2R (@n_dblmax F64 (f64_num L)) = IZR ((2 ^ 53 - 1) * 2 ^ 971).
Proof. exact (f64_dblmax_correct false). Qed.
Lemma lowest_value L : is_finite (@n_lowest F64 (f64_num L)) = true /\
  B2R (@n_lowest F64 (f64_num L)) = IZR (- ((2 ^ 53 - 1) * 2 ^ 971)).
Proof. exact (f64_dblmax_correct true). Qed.
Lemma finite_le_dblmax (x : F64) : is_finite x = true ->
  (IZR (- ((2 ^ 53 - 1) * 2 ^ 971)) <= B2R x <= IZR ((2 ^ 53 - 1) * 2 ^ 971))%R.
Proof.
  intros _; pose proof (abs_B2R_le_emax_minus_prec 53 1024 F64_prec x) as H.
  assert (E : (bpow radix2 1024 - bpow radix2 (1024 - 53) = IZR ((2 ^ 53 - 1) * 2 ^ 971))%R).
  { rewrite <- (IZR_Zpower radix2 1024), <- (IZR_Zpower radix2 (1024 - 53)) by lia; rewrite <- minus_IZR; apply f_equal; reflexivity. }
  rewrite E in H; rewrite opp_IZR; apply Rabs_le_inv in H; exact H.
Qed.
Lemma dblmax_nz : IZR ((2 ^ 53 - 1) * 2 ^ 971) <> 0%R. Proof. apply IZR_neq; discriminate. Qed.

(** ** C62 *)
Definition tight {T} {NT : Num T} (mn mx : T) (column : list T) : Prop :=
  In mn column /\ In mx column /\ forall x, In x column -> n_leb mn x = true /\ n_leb x mx = true.

Theorem C62_scalar :
  forall (L : Libm) (s : Serie F64) xs,
  repr s 1 (col xs) -> xs <> [] -> Forall (fun x => is_finite x = true) xs ->
  exists mn mx, @minMax F64 (f64_num L) s = Ok ([mn], [mx]) /\ @tight F64 (f64_num L) mn mx xs.
Proof.
  intros L s xs Hs Hne Hf.
  rewrite (@minMax_scalar F64 (f64_num L) s xs Hs Hne).
  destruct (dblmax_value L) as [Fd Vd]; destruct (lowest_value L) as [Fl Vl].
  assert (Hg : Forall not_nan xs) by (eapply Forall_impl; [|exact Hf]; intros x; apply nan_finite).
  destruct (@fold_min F64 (f64_num L) not_nan ext (f64_ordered L) xs Hg n_dblmax (nan_finite _ Fd)) as (G1 & _ & B1 & I1).
  destruct (@fold_max F64 (f64_num L) not_nan ext (f64_ordered L) xs Hg n_lowest (nan_finite _ Fl)) as (G2 & _ & B2 & I2).
  set (mn := fold_left n_min xs n_dblmax) in *; set (mx := fold_left n_max xs n_lowest) in *; cbv zeta in *.
  exists mn, mx; split; [reflexivity|].
  rewrite Forall_forall in Hf, Hg.
  destruct xs as [|x0 xs]; [congruence|].
  assert (In0 : In x0 (x0 :: xs)) by (left; reflexivity).
  split; [|split].
  - destruct I1 as [I1|I1]; [|exact I1].
    (* every value is DBL_MAX *)
    assert (E : x0 = mn).
    { rewrite <- I1; pose proof (B1 x0 In0) as Hle; rewrite <- I1 in Hle.
      rewrite !ext_finite in Hle by (auto; exact Fd); rewrite Vd in Hle.
      pose proof (finite_le_dblmax x0 (Hf x0 In0)).
      symmetry; apply f64_inj_nz; auto; rewrite Vd; [apply dblmax_nz|lra]. }
    rewrite <- E; exact In0.
  - destruct I2 as [I2|I2]; [|exact I2].
    assert (E : x0 = mx).
    { rewrite <- I2; pose proof (B2 x0 In0) as Hle; rewrite <- I2 in Hle.
      rewrite !ext_finite in Hle by (auto; exact Fl); rewrite Vl in Hle.
      pose proof (finite_le_dblmax x0 (Hf x0 In0)).
      symmetry; apply f64_inj_nz; auto; rewrite Vl; [rewrite opp_IZR; pose proof dblmax_nz; lra|lra]. }
    rewrite <- E; exact In0.
  - intros x Hx; split; apply Bleb_ext; auto.
Qed.
Print Assumptions C62_scalar.

Theorem C62_vector :
  forall (L : Libm) (s : Serie F64) k rows,
  repr s k rows -> 2 <= k -> rows <> [] -> Forall (Forall not_nan) rows ->
  exists mn mx, @minMax F64 (f64_num L) s = Ok (mn, mx) /\ len mn = k /\ len mx = k /\
    forall c, Z.of_nat c < k -> @tight F64 (f64_num L) (nth c mn #0) (nth c mx #0) (map (fun r => nth c r #0) rows).
Proof.
  intros L s k rows Hs Hk Hne Hg; destruct rows as [|r0 rows]; [congruence|].
  rewrite (@minMax_vector F64 (f64_num L) s k r0 rows Hs Hk).
  pose proof (repr_rows _ _ _ Hs) as Hr; inversion Hr as [|? ? L0 Hr']; subst.
  eexists _, _; split; [reflexivity|].
  split; [apply (fold_map2_column _ #0 O (len r0)); auto; simpl; lia|].
  split; [apply (fold_map2_column _ #0 O (len r0)); auto; simpl; lia|].
  intros c Hc.
  destruct (fold_map2_column (@n_min F64 (f64_num L)) #0 c (len r0) rows r0 Hr' eq_refl Hc) as [-> _].
  destruct (fold_map2_column (@n_max F64 (f64_num L)) #0 c (len r0) rows r0 Hr' eq_refl Hc) as [-> _].
  inversion Hg as [|? ? G0 Gr]; subst.
  assert (Nth : forall r, Forall not_nan r -> len r = len r0 -> not_nan (nth c r #0)).
  { intros r Gx Lx; rewrite Forall_forall in Gx; apply Gx, nth_In; unfold len in *; lia. }
  assert (Gc : Forall not_nan (map (fun r => nth c r #0) rows)).
  { apply Forall_forall; intros x Hx; apply in_map_iff in Hx; destruct Hx as (r & <- & Hin).
    rewrite Forall_forall in Gr; apply Nth; [apply Gr, Hin|].
    unfold rows_of_size in Hr'; rewrite Forall_forall in Hr'; apply Hr', Hin. }
  destruct (@fold_min F64 (f64_num L) not_nan ext (f64_ordered L) _ Gc _ (Nth r0 G0 eq_refl)) as (G1 & A1 & B1 & I1).
  destruct (@fold_max F64 (f64_num L) not_nan ext (f64_ordered L) _ Gc _ (Nth r0 G0 eq_refl)) as (G2 & A2 & B2 & I2).
  split; [exact I1|]; split; [exact I2|].
  intros x [<-|Hx]; split; apply Bleb_ext; auto; rewrite Forall_forall in Gc; auto.
Qed.
Print Assumptions C62_vector.

Theorem C62_edges :
  forall (T : Type) (NT : Num T) (s : Serie T),
  (isValid s = false -> minMax s = Throw InvalidArgument) /\
  (isValid s = true -> count s = 0 -> minMax s = Ok ([], [])).
Proof.
  intros T NT s; unfold minMax; split; [intros ->; reflexivity|]; intros -> ->; reflexivity.
Qed.
Print Assumptions C62_edges.

Example C62_ex :
  let s := mk 2 [[f64_inf; B754_zero false]; [f64_ninf; f64_inf]] 3 in
  repr s 2 [[f64_inf; B754_zero false]; [f64_ninf; f64_inf]] /\
  minMax s = Ok ([f64_ninf; B754_zero false], [f64_inf; f64_inf]) /\
  minMax (mk 0 [] 3 : Serie F64) = Throw InvalidArgument /\ minMax (mk 4 [] 3 : Serie F64) = Ok ([], []).
Proof. split; [repr_ex|]; repeat split; reflexivity. Qed.
Example C62_scalar_ex :
  let s := mk 1 (col [#3; #1; #2]) 3 in
  repr s 1 (col [#3; #1; #2]) /\ Forall (fun x : F64 => is_finite x = true) [#3; #1; #2] /\ minMax s = Ok ([#1], [#3]).
Proof.
  split; [repr_ex|]; split.
  - repeat (constructor; [apply f64_of_Z_correct; lia|]); constructor.
  - rewrite (@minMax_scalar F64 F64N _ [#3; #1; #2]) by (try discriminate; repr_ex).
    pose proof (dblmax_value libm0) as [Fd Vd]; pose proof (lowest_value libm0) as [Fl Vl].
    assert (B : forall a b : F64, is_finite a = true -> is_finite b = true -> Bltb a b = Rlt_bool (B2R a) (B2R b)) by (intros; apply Bltb_correct; assumption).
    destruct (f64_of_Z_correct 1 ltac:(lia)) as (R1 & F1 & _); destruct (f64_of_Z_correct 2 ltac:(lia)) as (R2 & F2 & _);
      destruct (f64_of_Z_correct 3 ltac:(lia)) as (R3 & F3 & _).
    assert (V : forall (a b : F64) x y, B2R a = IZR x -> B2R b = IZR y -> is_finite a = true -> is_finite b = true -> Bltb a b = (x <? y)).
    { intros a b x y Ra Rb Fa Fb; rewrite (B a b Fa Fb), Ra, Rb.
      destruct (Z.ltb_spec x y); [apply Rlt_bool_true, IZR_lt; assumption|apply Rlt_bool_false, IZR_le; assumption]. }
    cbn [fold_left]; unfold n_min, n_max; change F64N with (f64_num libm0).
    change (@n_ltb F64 (f64_num libm0)) with (@Bltb 53 1024).
    rewrite (V #3 n_dblmax 3 _ R3 Vd F3 Fd), (V n_lowest #3 _ 3 Vl R3 Fl F3).
    change (3 <? (2 ^ 53 - 1) * 2 ^ 971) with true; change (- ((2 ^ 53 - 1) * 2 ^ 971) <? 3) with true.
    cbn iota; rewrite (V #1 #3 1 3 R1 R3 F1 F3), (V #3 #1 3 1 R3 R1 F3 F1); cbn [Z.ltb Z.compare Pos.compare Pos.compare_cont].
    cbn iota; rewrite (V #2 #1 2 1 R2 R1 F2 F1), (V #3 #2 3 2 R3 R2 F3 F2); reflexivity.
Qed.

(** ** C63: false.  A Serie of infinities reports DBL_MAX as its minimum. *)
Theorem C63_refuted :
  exists (s : Serie F64) xs, repr s 1 (col xs) /\ xs <> [] /\ Forall not_nan xs /\
    forall L, exists mn mx, @minMax F64 (f64_num L) s = Ok ([mn], [mx]) /\ ~ In mn xs.
Proof.
  exists (mk 1 (col [f64_inf]) 3), [f64_inf]; split; [repr_ex|]; split; [discriminate|]; split; [repeat constructor|].
  intros L; rewrite (@minMax_scalar F64 (f64_num L) _ [f64_inf]) by (try discriminate; repr_ex).
  eexists _, _; split; [reflexivity|].
  destruct (dblmax_value L) as [Fd Vd]; cbn [fold_left]; unfold n_min; cbn [n_ltb f64_num].
  intros Hin; revert Fd.
  replace (Bltb f64_inf n_dblmax) with false in Hin.
  - destruct Hin as [<-|[]]; discriminate.
  - destruct (@n_dblmax F64 (f64_num L)) as [| | |[] ]; reflexivity.
Qed.
Print Assumptions C63_refuted.

(** what remains: with a finite value on each side of ... every NaN-free scalar Serie whose values are not all +inf (all -inf) *)
Theorem C63_partial :
  forall (L : Libm) (s : Serie F64) xs,
  repr s 1 (col xs) -> Forall not_nan xs ->
  (exists x, In x xs /\ x <> f64_inf) -> (exists x, In x xs /\ x <> f64_ninf) ->
  exists mn mx, @minMax F64 (f64_num L) s = Ok ([mn], [mx]) /\ @tight F64 (f64_num L) mn mx xs.
Proof.
  intros L s xs Hs Hg (x1 & In1 & N1) (x2 & In2 & N2).
  assert (Hne : xs <> []) by (intros ->; destruct In1).
  rewrite (@minMax_scalar F64 (f64_num L) s xs Hs Hne).
  destruct (dblmax_value L) as [Fd Vd]; destruct (lowest_value L) as [Fl Vl].
  destruct (@fold_min F64 (f64_num L) not_nan ext (f64_ordered L) xs Hg n_dblmax (nan_finite _ Fd)) as (G1 & _ & B1 & I1).
  destruct (@fold_max F64 (f64_num L) not_nan ext (f64_ordered L) xs Hg n_lowest (nan_finite _ Fl)) as (G2 & _ & B2 & I2).
  set (mn := fold_left n_min xs n_dblmax) in *; set (mx := fold_left n_max xs n_lowest) in *; cbv zeta in *.
  exists mn, mx; split; [reflexivity|].
  rewrite Forall_forall in Hg.
  pose proof (bpow_gt_0 radix2 1024) as P.
  split; [|split].
  - destruct I1 as [I1|I1]; [|exact I1].
    pose proof (B1 x1 In1) as Hle; rewrite <- I1, (ext_finite _ Fd), Vd in Hle.
    assert (F1 : is_finite x1 = true).
    { destruct x1 as [|[]| |]; try reflexivity; [|exfalso; apply N1; reflexivity|discriminate (Hg _ In1)].
      exfalso; cbn [ext] in Hle; assert (0 <= IZR ((2 ^ 53 - 1) * 2 ^ 971))%R by (apply IZR_le; discriminate); lra. }
    assert (E : x1 = mn).
    { rewrite <- I1; rewrite (ext_finite _ F1) in Hle; pose proof (finite_le_dblmax x1 F1).
      symmetry; apply f64_inj_nz; auto; rewrite Vd; [apply dblmax_nz|lra]. }
    rewrite <- E; exact In1.
  - destruct I2 as [I2|I2]; [|exact I2].
    pose proof (B2 x2 In2) as Hle; rewrite <- I2, (ext_finite _ Fl), Vl in Hle.
    assert (F2 : is_finite x2 = true).
    { destruct x2 as [|[]| |]; try reflexivity; [exfalso; apply N2; reflexivity| |discriminate (Hg _ In2)].
      exfalso; cbn [ext] in Hle; assert (IZR (- ((2 ^ 53 - 1) * 2 ^ 971)) <= 0)%R by (apply IZR_le; discriminate); lra. }
    assert (E : x2 = mx).
    { rewrite <- I2; rewrite (ext_finite _ F2) in Hle; pose proof (finite_le_dblmax x2 F2).
      symmetry; apply f64_inj_nz; auto; rewrite Vl; [rewrite opp_IZR; pose proof dblmax_nz; lra|lra]. }
    rewrite <- E; exact In2.
  - intros x Hx; split; apply Bleb_ext; auto.
Qed.
Print Assumptions C63_partial.

Example C63_partial_ex : Forall not_nan [f64_inf; f64_ninf] /\
  (exists x, In x [f64_inf; f64_ninf] /\ x <> f64_inf) /\ (exists x, In x [f64_inf; f64_ninf] /\ x <> f64_ninf).
Proof.
  split; [repeat constructor|]; split; [exists f64_ninf|exists f64_inf]; split; simpl; auto; discriminate.
Qed.

(** ** C64: scalar normalize, exact arithmetic.  The values are within the range of double. *)
Lemma r_ordered : @ordered_by R r_num (fun _ => True) (fun x => x).
Proof.
  intros x y _ _; cbn [n_ltb n_leb n_eqb r_num]; split; [|split]; split; intros H.
  - destruct (Rlt_bool_spec x y); [assumption|discriminate].
  - apply Rlt_bool_true; exact H.
  - destruct (Rle_bool_spec x y); [assumption|discriminate].
  - apply Rle_bool_true; exact H.
  - destruct (Req_bool_spec x y); [assumption|discriminate].
  - apply Req_bool_true; exact H.
Qed.

Theorem C64_normalize_scalar :
  forall (s : Serie R) xs,
  repr s 1 (col xs) -> Forall (fun x => Rabs x <= IZR ((2 ^ 53 - 1) * 2 ^ 971))%R xs ->
  (exists x y, In x xs /\ In y xs /\ x <> y) ->
  exists f, @normalize R r_num s = Ok (mk 1 (col (map f xs)) 3) /\
    (forall x, In x xs -> (0 <= f x <= 1)%R) /\
    (forall x, In x xs -> (forall y, In y xs -> (x <= y)%R) -> f x = 0%R) /\
    (forall x, In x xs -> (forall y, In y xs -> (y <= x)%R) -> f x = 1%R) /\
    (forall x y, (x < y)%R -> (f x < f y)%R).
Proof.
  intros s xs Hs Hb (u & v & Hu & Hv & Huv).
  assert (Hne : xs <> []) by (intros ->; destruct Hu).
  assert (Hg : Forall (fun _ : R => True) xs) by (apply Forall_forall; auto).
  destruct (@fold_min R r_num _ _ r_ordered xs Hg (@n_dblmax R r_num) I) as (_ & _ & B1 & I1).
  destruct (@fold_max R r_num _ _ r_ordered xs Hg (@n_lowest R r_num) I) as (_ & _ & B2 & I2).
  rewrite Forall_forall in Hb.
  assert (D : (0 < IZR ((2 ^ 53 - 1) * 2 ^ 971))%R) by (apply IZR_lt; reflexivity).
  set (D0 := IZR ((2 ^ 53 - 1) * 2 ^ 971)) in *.
  change (@n_dblmax R r_num) with D0 in *.
  assert (El : @n_lowest R r_num = (- D0)%R) by (unfold n_lowest; cbn [n_of_Z r_num]; apply opp_IZR).
  rewrite El in *.
  pose proof (@minMax_scalar R r_num s xs Hs Hne) as MM.
  change (@n_dblmax R r_num) with D0 in MM; rewrite El in MM.
  set (mn := fold_left (@n_min R r_num) xs D0) in *; set (mx := fold_left (@n_max R r_num) xs (- D0)%R) in *; cbv zeta in *.
  assert (Imn : In mn xs).
  { destruct I1 as [I1|I1]; [|exact I1]. pose proof (B1 u Hu). pose proof (Hb u Hu) as Q; apply Rabs_le_inv in Q.
    replace mn with u by lra; exact Hu. }
  assert (Imx : In mx xs).
  { destruct I2 as [I2|I2]; [|exact I2]. pose proof (B2 u Hu). pose proof (Hb u Hu) as Q; apply Rabs_le_inv in Q.
    replace mx with u by lra; exact Hu. }
  assert (Hlt : (mn < mx)%R).
  { pose proof (B1 u Hu); pose proof (B1 v Hv); pose proof (B2 u Hu); pose proof (B2 v Hv).
    destruct (Rle_lt_dec mx mn); [exfalso; apply Huv; lra|assumption]. }
  exists (fun x => (1 / (mx - mn) * (x - mn))%R).
  assert (Pl : (0 < 1 / (mx - mn))%R) by (unfold Rdiv; rewrite Rmult_1_l; apply Rinv_0_lt_compat; lra).
  assert (One : (1 / (mx - mn) * (mx - mn) = 1)%R) by (field; lra).
  split; [|split; [|split; [|split]]].
  - unfold normalize; rewrite (isValid_repr _ _ _ Hs), (repr_itemSize _ _ _ Hs); cbn [Z.ltb Z.compare negb Z.eqb Pos.eqb].
    rewrite MM; cbn [obind fst snd rd].
    apply (run_map_ss _ s xs); [exact Hs|apply map_length|].
    intros j x y Hj Hy; rewrite nth_error_map, Hj in Hy; injection Hy as <-; reflexivity.
  - intros x Hx; pose proof (B1 x Hx); pose proof (B2 x Hx); split.
    + apply Rmult_le_pos; lra.
    + apply Rle_trans with (1 / (mx - mn) * (mx - mn))%R; [apply Rmult_le_compat_l; lra|lra].
  - intros x Hx Hmin; pose proof (B1 x Hx); pose proof (Hmin mn Imn); replace (x - mn)%R with 0%R by lra; ring.
  - intros x Hx Hmax; pose proof (B2 x Hx); pose proof (Hmax mx Imx); replace x with mx by lra; exact One.
  - intros x y Hxy; apply Rmult_lt_compat_l; lra.
Qed.
Print Assumptions C64_normalize_scalar.

Example C64_ex :
  let xs := [3; 1; 2]%R in
  repr (mk 1 (col xs) 3) 1 (col xs) /\ Forall (fun x => Rabs x <= IZR ((2 ^ 53 - 1) * 2 ^ 971))%R xs /\
  exists x y, In x xs /\ In y xs /\ x <> y.
Proof.
  cbv zeta; split; [repr_ex|]; split.
  - repeat (constructor; [rewrite <- abs_IZR; apply IZR_le; reflexivity || discriminate|]); constructor.
  - exists 3%R, 1%R; simpl; repeat split; auto; lra.
Qed.

(** an empty scalar Serie is read out of bounds *)
Example C64_empty_ub : forall (T : Type) (NT : Num T), normalize (mk 1 [] 3 : Serie T) = UB.
Proof. reflexivity. Qed.

(** ** C65: vector normalize, exact arithmetic *)
Definition square_norm (r : list R) : R := fold_right (fun x a => x * x + a)%R 0%R r.

Theorem C65_normalize_vector :
  forall (s : Serie R) k rows,
  repr s k rows -> 2 <= k -> rows <> [] ->
  exists f, @normalize R r_num s = Ok (mk k (map f rows) 3) /\
    forall r, In r rows -> square_norm r <> 0%R ->
      square_norm (f r) = 1%R /\ exists l, (0 < l)%R /\ f r = map (fun x => x * l)%R r.
Proof.
  intros s k rows Hs Hk Hne.
  assert (Sq : forall r a, fold_left (fun acc v => acc + v * v)%R r a = (a + square_norm r)%R).
  { induction r as [|x r IH]; intros a; cbn [fold_left square_norm fold_right]; [ring|]; rewrite IH; unfold square_norm; ring. }
  exists (fun r => map (fun x => x * (1 / sqrt (square_norm r)))%R r); split.
  - unfold normalize; rewrite (isValid_repr _ _ _ Hs), (repr_itemSize _ _ _ Hs).
    replace (0 <? k) with true by (symmetry; apply Z.ltb_lt; lia).
    replace (k =? 1) with false by (symmetry; apply Z.eqb_neq; lia); cbn [negb].
    apply (run_map_vv _ s k rows); auto; [unfold repr in Hs; lia|apply map_length| |].
    + pose proof (repr_rows _ _ _ Hs) as Hr; clear -Hr; induction Hr as [|r rows Lr Hr IH]; simpl; constructor; [rewrite len_map; exact Lr|exact IH].
    + intros j r y Hj Hy; rewrite nth_error_map, Hj in Hy; injection Hy as <-; unfold ret.
      cbn [n_add n_mul n_div n_sqrt r_num]; change (@n0 R r_num) with 0%R; change (@n1 R r_num) with 1%R.
      rewrite Sq, Rplus_0_l; reflexivity.
  - intros r Hr Hz.
    assert (Nn : forall r, (0 <= square_norm r)%R).
    { induction r0 as [|x r0 IH]; cbn [square_norm fold_right]; [lra|]; fold (square_norm r0); nra. }
    assert (P : (0 < square_norm r)%R) by (pose proof (Nn r); lra).
    assert (Pl : (0 < 1 / sqrt (square_norm r))%R) by (unfold Rdiv; rewrite Rmult_1_l; apply Rinv_0_lt_compat, sqrt_lt_R0; exact P).
    split; [|eexists; split; [exact Pl|reflexivity]].
    assert (Sc : forall l r, square_norm (map (fun x => x * l)%R r) = (l * l * square_norm r)%R).
    { clear; induction r as [|x r IH]; cbn [map square_norm fold_right]; [ring|]; unfold square_norm in IH; rewrite IH; unfold square_norm; ring. }
    rewrite Sc; unfold Rdiv; rewrite Rmult_1_l.
    assert (N0 : sqrt (square_norm r) <> 0%R) by (apply Rgt_not_eq, sqrt_lt_R0; exact P).
    replace (square_norm r) with (sqrt (square_norm r) * sqrt (square_norm r))%R at 3 by (apply sqrt_sqrt; lra).
    field; exact N0.
Qed.
Print Assumptions C65_normalize_vector.

Example C65_ex : repr (mk 2 [[3; 4]; [0; 0]]%R 3) 2 [[3; 4]; [0; 0]]%R /\ square_norm [3; 4]%R <> 0%R.
Proof. split; [repr_ex|]; cbn; lra. Qed.
(** in binary64 a zero vector becomes NaN *)
Transparent f64_of_Z.
Lemma f64_of_0 : #0 = B754_zero false. Proof. reflexivity. Qed.
Opaque f64_of_Z.
Example C65_zero_nan :
  let z : F64 := B754_zero false in normalize (mk 2 [[z; z]] 3) = Ok (mk 2 [[f64_nan; f64_nan]] 3).
Proof.
  cbv zeta; destruct (f64_of_Z_correct 1 ltac:(lia)) as (R1 & F1 & _).
  set (z := B754_zero false : F64); pose proof f64_of_0 as Z0.
  assert (E : f64_mul z (f64_div #1 (f64_sqrt (f64_add (f64_add #0 (f64_mul z z)) (f64_mul z z)))) = f64_nan).
  { replace (f64_sqrt _) with z by (rewrite Z0; reflexivity).
    destruct (#1) as [s1|s1| |s1 m1 e1 H1]; try discriminate; [simpl in R1; lra|reflexivity]. }
  transitivity (Ok (mk 2 [map (fun v => f64_mul v (f64_div #1 (f64_sqrt (f64_add (f64_add #0 (f64_mul z z)) (f64_mul z z))))) [z; z]] 3)).
  - reflexivity.
  - cbn [map]; rewrite E; reflexivity.
Qed.
