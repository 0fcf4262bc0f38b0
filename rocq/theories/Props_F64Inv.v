(** * C126: inv in binary64. *)
From Verif Require Import Base Num Serie Spec BaseFacts SerieFacts Functional FunctionalFacts Mathf MathFacts MinMaxFacts Views Algebra AlgebraFacts.
From Verif Require Import F64 F64Facts F64Arith F64Round F64Sum RNum LinSpec Props_Functional Props_MultDiv Props_Algebra Props_Det Props_F64Int.
From Flocq Require Import Core Relative IEEE754.BinarySingleNaN.
From Coq Require Import Reals Lra Psatz.
Open Scope Z_scope.
Opaque f64_of_Z.

(** relative error of at most two roundings *)
Definition near (x : F64) (r : R) : Prop := is_finite x = true /\ (Rabs (B2R x - r) <= growth 2 * Rabs r)%R.

Lemma rnd_rel r : (bpow radix2 (-1022) <= Rabs r)%R -> exists e, (Rabs e <= uu)%R /\ rnd r = (r * (1 + e))%R.
Proof.
  intros H; destruct (relative_error_N_FLT_ex radix2 (SpecFloat.emin 53 1024) 53 ltac:(lia) (fun x => negb (Z.even x)) r) as (e & He & E).
  - exact H.
  - rewrite half_ulp in He; exists e; split; [exact He|exact E].
Qed.

(** one entry: a cofactor times the rounded reciprocal of the determinant *)
Lemma entry_near (c d : F64) n m : is_real c (IZR n) -> is_real d (IZR m) -> Z.abs n <= 2 ^ 40 -> m <> 0 -> Z.abs m <= 2 ^ 53 ->
  near (f64_mul c (f64_div #1 d)) (IZR n * / IZR m).
Proof.
  intros [Fc Ec] [Fd Ed] Hn Hm Hm'.
  destruct (f64_of_Z_correct 1 ltac:(lia)) as (E1 & F1 & _).
  assert (M0 : IZR m <> 0%R) by (apply IZR_neq; exact Hm).
  assert (Ma : (1 <= Rabs (IZR m) <= IZR (2 ^ 53))%R) by (rewrite <- abs_IZR; split; apply IZR_le; lia).
  assert (Na : (Rabs (IZR n) <= IZR (2 ^ 40))%R) by (rewrite <- abs_IZR; apply IZR_le; exact Hn).
  assert (Q : (Rabs (1 / IZR m) <= 1)%R).
  { unfold Rdiv; rewrite Rmult_1_l, Rabs_inv by exact M0; rewrite <- Rinv_1; apply Rinv_le; lra. }
  assert (Qlo : (bpow radix2 (-53) <= Rabs (1 / IZR m))%R).
  { unfold Rdiv; rewrite Rmult_1_l, Rabs_inv by exact M0.
    change (bpow radix2 (-53)) with (/ IZR (Z.pow_pos 2 53))%R; apply Rinv_le; [lra|exact (proj2 Ma)]. }
  destruct (div_ok #1 d F1) as [Ei Fi]; rewrite ?E1, ?Ed in *; [exact M0|apply (range_abs #1); rewrite E1, Rabs_R1; exact Q|].
  destruct (rnd_rel (1 / IZR m)) as (e & He & Ee).
  { eapply Rle_trans; [|exact Qlo]; apply bpow_le; lia. }
  rewrite Ee in Ei; set (i := f64_div #1 d) in *; clearbody i.
  assert (U : (uu = / IZR (2 ^ 53))%R) by reflexivity.
  assert (U2 : (0 < uu <= / 2)%R) by (rewrite U; split; [apply Rinv_0_lt_compat; lra|apply Rinv_le; lra]).
  assert (Be : (- uu <= e <= uu)%R) by (apply Rabs_le_inv; exact He).
  assert (G2 : growth 2 = (2 * uu + uu * uu)%R) by (unfold growth; cbn [pow]; ring).
  destruct (Z.eq_dec n 0) as [->|Hn0].
  - destruct (mul_ok c i Fc Fi) as [E F].
    + rewrite Ec; replace (0 * B2R i)%R with 0%R by ring; unfold in_range; rewrite rnd_0, Rabs_R0; apply bpow_gt_0.
    + split; [exact F|]; rewrite E, Ec; replace (0 * B2R i)%R with 0%R by ring; rewrite rnd_0, Rmult_0_l, Rminus_0_r, Rabs_R0; lra.
  - assert (N1 : (1 <= Rabs (IZR n))%R) by (rewrite <- abs_IZR; apply IZR_le; lia).
    assert (Ai : (Rabs (B2R i) = Rabs (1 / IZR m) * (1 + e))%R) by (rewrite Ei, Rabs_mult, (Rabs_pos_eq (1 + e)) by lra; reflexivity).
    assert (Ilo : (bpow radix2 (-54) <= Rabs (B2R i))%R).
    { rewrite Ai; change (bpow radix2 (-54)) with (bpow radix2 (-53 + -1)); rewrite bpow_plus; pose proof (bpow_gt_0 radix2 (-53)) as P.
      change (bpow radix2 (-1)) with (/ 2)%R; nra. }
    assert (Ihi : (Rabs (B2R i) <= 2)%R) by (rewrite Ai; pose proof (Rabs_pos (1 / IZR m)); nra).
    destruct (mul_ok c i Fc Fi) as [E F].
    + destruct (f64_of_Z_correct (2 ^ 41) ltac:(lia)) as (E41 & F41 & _).
      apply (range_abs (f64_of_Z (2 ^ 41))); rewrite E41, Ec, Rabs_mult, (Rabs_pos_eq (IZR (2 ^ 41))) by (apply IZR_le; lia).
      pose proof (Rabs_pos (IZR n)); pose proof (Rabs_pos (B2R i)); change (2 ^ 41) with (2 ^ 40 * 2); rewrite mult_IZR; nra.
    + split; [exact F|]; rewrite E, Ec.
      destruct (rnd_rel (IZR n * B2R i)) as (e' & He' & Ee').
      { rewrite Rabs_mult; eapply Rle_trans; [apply (bpow_le radix2 (-1022) (-54)); lia|]; pose proof (Rabs_pos (B2R i)); nra. }
      assert (Be' : (- uu <= e' <= uu)%R) by (apply Rabs_le_inv; exact He').
      rewrite Ee', Ei; replace (IZR n * (1 / IZR m * (1 + e)) * (1 + e') - IZR n * / IZR m)%R with (IZR n * / IZR m * (e + e' + e * e'))%R by (unfold Rdiv; ring).
      rewrite Rabs_mult, Rmult_comm; apply Rmult_le_compat_r; [apply Rabs_pos|]; rewrite G2.
      apply Rabs_le; nra.
Qed.

(** a 2x2 minor and the expansion of the determinant, on whole numbers *)
Lemma minor_whole B (a b c d : F64) : 0 <= B <= 2 ^ 16 -> whole B a -> whole B b -> whole B c -> whole B d ->
  exists n, is_real (f64_sub (f64_mul a b) (f64_mul c d)) (IZR n) /\ Z.abs n <= 2 ^ 33 /\ IZR n = (B2R a * B2R b - B2R c * B2R d)%R.
Proof.
  intros HB [Fa (na & Ea & Ba)] [Fb (nb & Eb & Bb)] [Fc (nc & Ec & Bc)] [Fd (nd & Ed & Bd)].
  pose proof (abs_mul_le na nb (2 ^ 16) (2 ^ 16) ltac:(lia) ltac:(lia)) as H5; change (2 ^ 16 * 2 ^ 16) with (2 ^ 32) in H5.
  pose proof (abs_mul_le nc nd (2 ^ 16) (2 ^ 16) ltac:(lia) ltac:(lia)) as H6; change (2 ^ 16 * 2 ^ 16) with (2 ^ 32) in H6.
  exists (na * nb - nc * nd); split; [|split; [lia|rewrite Ea, Eb, Ec, Ed, minus_IZR, !mult_IZR; reflexivity]].
  apply int_sub; [apply int_mul; try (split; assumption); lia|apply int_mul; try (split; assumption); lia|lia].
Qed.
Lemma expand_whole B (x y z : F64) (m1 m2 m3 : F64) n1 n2 n3 : 0 <= B <= 2 ^ 16 -> whole B x -> whole B y -> whole B z ->
  is_real m1 (IZR n1) -> Z.abs n1 <= 2 ^ 33 -> is_real m2 (IZR n2) -> Z.abs n2 <= 2 ^ 33 -> is_real m3 (IZR n3) -> Z.abs n3 <= 2 ^ 33 ->
  exists n, is_real (f64_add (f64_sub (f64_mul x m1) (f64_mul y m2)) (f64_mul z m3)) (IZR n) /\ Z.abs n <= 2 ^ 53 /\
    IZR n = (B2R x * IZR n1 - B2R y * IZR n2 + B2R z * IZR n3)%R.
Proof.
  intros HB [Fx (a & Ex & Ba)] [Fy (b & Ey & Bb)] [Fz (c & Ez & Bc)] R1 L1 R2 L2 R3 L3.
  pose proof (abs_mul_le a n1 (2 ^ 16) (2 ^ 33) ltac:(lia) L1) as H1; change (2 ^ 16 * 2 ^ 33) with (2 ^ 49) in H1.
  pose proof (abs_mul_le b n2 (2 ^ 16) (2 ^ 33) ltac:(lia) L2) as H2; change (2 ^ 16 * 2 ^ 33) with (2 ^ 49) in H2.
  pose proof (abs_mul_le c n3 (2 ^ 16) (2 ^ 33) ltac:(lia) L3) as H3; change (2 ^ 16 * 2 ^ 33) with (2 ^ 49) in H3.
  exists (a * n1 - b * n2 + c * n3); split; [|split; [lia|rewrite Ex, Ey, Ez, plus_IZR, minus_IZR, !mult_IZR; reflexivity]].
  apply int_add; [apply int_sub|apply int_mul|]; try (apply int_mul); try (split; assumption); try assumption; lia.
Qed.

(** the guard tells exactly the whole numbers apart from zero *)
Lemma guard_whole (L : Libm) (d : F64) n : is_real d (IZR n) -> Z.abs n <= 2 ^ 53 -> Bltb (Babs d) (@tiny F64 (f64_num L)) = (n =? 0).
Proof.
  intros [Fd Ed] Hn; destruct (tiny_pos L) as [Ft Pt]; fold (@tiny F64 (f64_num L)) in *.
  assert (T1 : (B2R (@tiny F64 (f64_num L)) <= 1)%R).
  { destruct (f64_of_Z_correct 1 ltac:(lia)) as (E1 & F1 & _); rewrite <- E1; apply (le_ok _ _ Ft F1).
    change (@tiny F64 (f64_num L)) with (f64_div (f64_of_Z 1) (f64_of_Z 10000000000)); vm_compute; reflexivity. }
  assert (Fa : is_finite (Babs d) = true) by (rewrite is_finite_Babs; exact Fd).
  destruct (Z.eqb_spec n 0) as [->|H0].
  - apply (lt_ok _ _ Fa Ft); rewrite B2R_Babs, Ed, Rabs_R0; exact Pt.
  - destruct (Bltb _ _) eqn:E; [|reflexivity]; apply (lt_ok _ _ Fa Ft) in E; rewrite B2R_Babs, Ed in E.
    assert (N1 : (1 <= Rabs (IZR n))%R) by (rewrite <- abs_IZR; apply IZR_le; lia); lra.
Qed.

(** the exact inverse, given by the cofactors *)
Lemma cofactors6 (v : list R) : len v = 6 -> determinant 3 (sym3 v) <> 0%R ->
  len (inv6 v) = 6 /\ mat_eq 3 (mat_mul 3 (sym3 (inv6 v)) (sym3 v)) mat_id.
Proof.
  intros Lv Nz; destruct (len6 v Lv) as (xx & xy & xz & yy & yz & zz & ->); split; [reflexivity|].
  unfold inv6; cbv zeta; revert Nz; set (D := determinant 3 (sym3 [xx; xy; xz; yy; yz; zz])).
  assert (ED : D = (xx * (yy * zz - yz * yz) - xy * (xy * zz - yz * xz) + xz * (xy * yz - yy * xz))%R) by (unfold D; det_unfold; unfold sym3; cbn; ring).
  clearbody D; intros Nz [|[|[|p]]] [|[|[|q]]] Hp Hq; try lia;
    unfold mat_mul, upto, LinSpec.total, sym3, mat_id; cbn; rewrite ED; field; rewrite <- ED; exact Nz.
Qed.
Definition adj9 (v : list R) : list R :=
  match v with
  | [xx; xy; xz; yx; yy; yz; zx; zy; zz] =>
      let d := (/ determinant 3 (full 3 v))%R in
      [(yy * zz - yz * zy) * d; (xz * zy - xy * zz) * d; (xy * yz - xz * yy) * d;
       (yz * zx - yx * zz) * d; (xx * zz - xz * zx) * d; (xz * yx - xx * yz) * d;
       (yx * zy - yy * zx) * d; (xy * zx - xx * zy) * d; (xx * yy - xy * yx) * d]%R
  | _ => []
  end.
Lemma cofactors9 (v : list R) : len v = 9 -> determinant 3 (full 3 v) <> 0%R ->
  len (adj9 v) = 9 /\ mat_eq 3 (mat_mul 3 (full 3 (adj9 v)) (full 3 v)) mat_id.
Proof.
  intros Lv Nz; destruct (len9 v Lv) as (xx & xy & xz & yx & yy & yz & zx & zy & zz & ->); split; [reflexivity|].
  unfold adj9; cbv zeta; revert Nz; set (D := determinant 3 (full 3 [xx; xy; xz; yx; yy; yz; zx; zy; zz])).
  assert (ED : D = (xx * (yy * zz - yz * zy) - xy * (yx * zz - yz * zx) + xz * (yx * zy - yy * zx))%R) by (unfold D; det_unfold; unfold full; cbn; ring).
  clearbody D; intros Nz [|[|[|p]]] [|[|[|q]]] Hp Hq; try lia;
    unfold mat_mul, upto, LinSpec.total, full, mat_id; cbn; rewrite ED; field; rewrite <- ED; exact Nz.
Qed.

Section Items.
  Context (L : Libm).
  Variable B : Z.
  Hypothesis HB : 0 <= B <= 2 ^ 16.
  Variables xx xy xz yx yy yz zx zy zz : F64.
  Hypothesis Wxx : whole B xx. Hypothesis Wxy : whole B xy. Hypothesis Wxz : whole B xz.
  Hypothesis Wyx : whole B yx. Hypothesis Wyy : whole B yy. Hypothesis Wyz : whole B yz.
  Hypothesis Wzx : whole B zx. Hypothesis Wzy : whole B zy. Hypothesis Wzz : whole B zz.
  Definition det9 : F64 :=
    f64_add (f64_sub (f64_mul xx (f64_sub (f64_mul yy zz) (f64_mul yz zy))) (f64_mul xy (f64_sub (f64_mul yx zz) (f64_mul yz zx))))
      (f64_mul xz (f64_sub (f64_mul yx zy) (f64_mul yy zx))).
  Lemma det9_whole : exists n, is_real det9 (IZR n) /\ Z.abs n <= 2 ^ 53 /\
    IZR n = determinant 3 (full 3 (values [xx; xy; xz; yx; yy; yz; zx; zy; zz])).
  Proof.
    destruct (minor_whole B yy zz yz zy HB Wyy Wzz Wyz Wzy) as (n1 & R1 & L1 & E1).
    destruct (minor_whole B yx zz yz zx HB Wyx Wzz Wyz Wzx) as (n2 & R2 & L2 & E2).
    destruct (minor_whole B yx zy yy zx HB Wyx Wzy Wyy Wzx) as (n3 & R3 & L3 & E3).
    destruct (expand_whole B xx xy xz _ _ _ n1 n2 n3 HB Wxx Wxy Wxz R1 L1 R2 L2 R3 L3) as (n & R & Ln & E).
    exists n; split; [exact R|]; split; [exact Ln|]; rewrite E, E1, E2, E3; cbn [map]; clear.
    generalize (B2R xx), (B2R xy), (B2R xz), (B2R yx), (B2R yy), (B2R yz), (B2R zx), (B2R zy), (B2R zz); intros.
    det_unfold; unfold full; cbn; ring.
  Qed.
  Lemma cof_near (a b c d e : F64) n : whole B a -> whole B b -> whole B c -> whole B d -> is_real e (IZR n) -> n <> 0 -> Z.abs n <= 2 ^ 53 ->
    near (f64_mul (f64_sub (f64_mul a b) (f64_mul c d)) (f64_div #1 e)) ((B2R a * B2R b - B2R c * B2R d) * / IZR n).
  Proof.
    intros Ha Hb Hc Hd He Hn Hn'; destruct (minor_whole B a b c d HB Ha Hb Hc Hd) as (m & Rm & Lm & Em).
    rewrite <- Em; apply entry_near; auto; lia.
  Qed.
End Items.

Lemma inv6_item_whole (L : Libm) B v : 0 <= B <= 2 ^ 16 -> len v = 6 -> Forall (whole B) v ->
  (determinant 3 (sym3 (values v)) = 0%R -> @inv6_item F64 (f64_num L) v = Throw RuntimeError) /\
  (determinant 3 (sym3 (values v)) <> 0%R -> exists w, @inv6_item F64 (f64_num L) v = Ok w /\ Forall2 near w (inv6 (values v))).
Proof.
  intros HB Lv Hv; destruct (len6 v Lv) as (xx & xy & xz & yy & yz & zz & ->).
  assert (W : whole B xx /\ whole B xy /\ whole B xz /\ whole B yy /\ whole B yz /\ whole B zz).
  { rewrite Forall_forall in Hv; repeat split; try (eapply Hv; cbn; tauto). }
  clear Hv; destruct W as (Wxx & Wxy & Wxz & Wyy & Wyz & Wzz).
  destruct (det9_whole B HB xx xy xz xy yy yz xz yz zz Wxx Wxy Wxz Wxy Wyy Wyz Wxz Wyz Wzz) as (n & Rn & Ln & En).
  assert (Es : determinant 3 (sym3 (values [xx; xy; xz; yy; yz; zz])) = IZR n).
  { rewrite En; cbn [map]; clear; generalize (B2R xx), (B2R xy), (B2R xz), (B2R yy), (B2R yz), (B2R zz); intros.
    det_unfold; unfold sym3, full; cbn; ring. }
  assert (Ei : @inv6_item F64 (f64_num L) [xx; xy; xz; yy; yz; zz] =
    let det := det9 xx xy xz xy yy yz xz yz zz in
    if Bltb (Babs det) (@tiny F64 (f64_num L)) then Throw RuntimeError
    else let i := f64_div #1 det in
      Ok [f64_mul (f64_sub (f64_mul yy zz) (f64_mul yz yz)) i; f64_mul (f64_sub (f64_mul xz yz) (f64_mul xy zz)) i;
          f64_mul (f64_sub (f64_mul xy yz) (f64_mul xz yy)) i; f64_mul (f64_sub (f64_mul xx zz) (f64_mul xz xz)) i;
          f64_mul (f64_sub (f64_mul xy xz) (f64_mul xx yz)) i; f64_mul (f64_sub (f64_mul xx yy) (f64_mul xy xy)) i]) by reflexivity.
  rewrite Ei, Es; cbv zeta; rewrite (guard_whole L _ n Rn Ln); clear Ei; split; intros H.
  - apply eq_IZR in H; subst n; reflexivity.
  - assert (Hn : n <> 0) by (intros ->; apply H; reflexivity).
    destruct (Z.eqb_spec n 0) as [|_]; [contradiction|]; eexists; split; [reflexivity|].
    unfold inv6; cbn [map]; cbn [map] in Es; rewrite Es; cbv zeta.
    repeat (apply Forall2_cons; [apply (cof_near B HB); assumption|]); apply Forall2_nil.
Qed.

(** all entries but the sixth *)
Definition near_but5 (w : list F64) (W : list R) : Prop :=
  length w = length W /\ forall j x y, j <> 5%nat -> nth_error w j = Some x -> nth_error W j = Some y -> near x y.

Lemma inv9_item_whole (L : Libm) B v : 0 <= B <= 2 ^ 16 -> len v = 9 -> Forall (whole B) v ->
  (determinant 3 (full 3 (values v)) = 0%R -> @inv9_item F64 (f64_num L) v = Throw RuntimeError) /\
  (determinant 3 (full 3 (values v)) <> 0%R -> exists w, @inv9_item F64 (f64_num L) v = Ok w /\ near_but5 w (adj9 (values v))).
Proof.
  intros HB Lv Hv; destruct (len9 v Lv) as (xx & xy & xz & yx & yy & yz & zx & zy & zz & ->).
  assert (W : whole B xx /\ whole B xy /\ whole B xz /\ whole B yx /\ whole B yy /\ whole B yz /\ whole B zx /\ whole B zy /\ whole B zz).
  { rewrite Forall_forall in Hv; repeat split; try (eapply Hv; cbn; tauto). }
  clear Hv; destruct W as (Wxx & Wxy & Wxz & Wyx & Wyy & Wyz & Wzx & Wzy & Wzz).
  destruct (det9_whole B HB xx xy xz yx yy yz zx zy zz Wxx Wxy Wxz Wyx Wyy Wyz Wzx Wzy Wzz) as (n & Rn & Ln & En).
  assert (Ei : @inv9_item F64 (f64_num L) [xx; xy; xz; yx; yy; yz; zx; zy; zz] =
    let det := det9 xx xy xz yx yy yz zx zy zz in
    if Bltb (Babs det) (@tiny F64 (f64_num L)) then Throw RuntimeError
    else let i := f64_div #1 det in
      Ok [f64_mul (f64_sub (f64_mul yy zz) (f64_mul yz zy)) i; f64_mul (f64_sub (f64_mul xz zy) (f64_mul xy zz)) i;
          f64_mul (f64_sub (f64_mul xy yz) (f64_mul xz yy)) i; f64_mul (f64_sub (f64_mul yz zx) (f64_mul yx zz)) i;
          f64_mul (f64_sub (f64_mul xx zz) (f64_mul xz zx)) i; f64_mul (f64_sub (f64_mul zx xy) (f64_mul xx zy)) i;
          f64_mul (f64_sub (f64_mul yx zy) (f64_mul yy zx)) i; f64_mul (f64_sub (f64_mul xy zx) (f64_mul xx zy)) i;
          f64_mul (f64_sub (f64_mul xx yy) (f64_mul xy yx)) i]) by reflexivity.
  rewrite Ei, <- En; cbv zeta; rewrite (guard_whole L _ n Rn Ln); clear Ei; split; intros H.
  - apply eq_IZR in H; subst n; reflexivity.
  - assert (Hn : n <> 0) by (intros ->; apply H; reflexivity).
    destruct (Z.eqb_spec n 0) as [|_]; [contradiction|]; eexists; split; [reflexivity|].
    unfold adj9; cbn [map]; cbn [map] in En; rewrite <- En; cbv zeta; split; [reflexivity|].
    intros [|[|[|[|[|[|[|[|[|j]]]]]]]]] x y Hj Ex Ey; cbn [nth_error] in Ex, Ey; try (exfalso; congruence);
      try (injection Ex as <-; injection Ey as <-; apply (cof_near B HB); assumption).
    destruct j; discriminate.
Qed.

(** ** C126: whole entries of at most 2^16 *)
Definition got {A} (o : outcome (list A)) : list A := match o with Ok w => w | _ => [] end.

Theorem C126_inverse_sym_partial :
  forall (L : Libm) (s : Serie F64) rows B,
  repr s 6 rows -> dimension s = 3 -> rows <> [] -> wholes B rows -> 0 <= B <= 2 ^ 16 ->
  (forall v, In v rows -> determinant 3 (sym3 (values v)) <> 0%R) ->
  exists rows', @inv F64 (f64_num L) s = Ok (mk 6 rows' 3) /\ length rows' = length rows /\
    forall i v w, nth_error rows i = Some v -> nth_error rows' i = Some w ->
      exists W, mat_eq 3 (mat_mul 3 (sym3 W) (sym3 (values v))) mat_id /\ Forall2 near w W.
Proof.
  intros L s rows B Hs Hd Hne HW HB Hnz; pose proof (repr_rows _ _ _ Hs) as Rr; unfold rows_of_size in Rr; rewrite Forall_forall in Rr.
  unfold wholes in HW; rewrite Forall_forall in HW.
  assert (G : forall v, In v rows -> @inv6_item F64 (f64_num L) v = Ok (got (@inv6_item F64 (f64_num L) v)) /\
    len (got (@inv6_item F64 (f64_num L) v)) = 6 /\ Forall2 near (got (@inv6_item F64 (f64_num L) v)) (inv6 (values v))).
  { intros v Hv; destruct (proj2 (inv6_item_whole L B v HB (Rr v Hv) (HW v Hv)) (Hnz v Hv)) as (w & E & F); rewrite E; cbn [got].
    split; [reflexivity|]; split; [|exact F].
    destruct (cofactors6 (values v) ltac:(rewrite len_map; apply Rr, Hv) (Hnz v Hv)) as [L6 _].
    rewrite <- L6; unfold len; f_equal; clear - F; induction F; cbn; congruence. }
  exists (map (fun v => got (@inv6_item F64 (f64_num L) v)) rows); split; [|split; [apply map_length|]].
  - unfold inv; rewrite (isValid_repr _ _ _ Hs), (repr_itemSize _ _ _ Hs), Hd; cbn [Z.ltb Z.compare negb Z.eqb Pos.eqb orb andb].
    apply (map_rows_ok s 6 rows inv6_item (fun v => got (inv6_item v)) 6 Hs Hne ltac:(lia)).
    intros v Hv; destruct (G v Hv) as (E & L6 & _); split; assumption.
  - intros i v w Ev Ew; rewrite nth_error_map, Ev in Ew; injection Ew as <-; apply nth_error_In in Ev.
    exists (inv6 (values v)); split; [|apply G, Ev].
    apply cofactors6; [rewrite len_map; apply Rr, Ev|apply Hnz, Ev].
Qed.
Print Assumptions C126_inverse_sym_partial.

Theorem C126_inverse_full_partial :
  forall (L : Libm) (s : Serie F64) rows B,
  repr s 9 rows -> dimension s = 3 -> rows <> [] -> wholes B rows -> 0 <= B <= 2 ^ 16 ->
  (forall v, In v rows -> determinant 3 (full 3 (values v)) <> 0%R) ->
  exists rows', @inv F64 (f64_num L) s = Ok (mk 9 rows' 3) /\ length rows' = length rows /\
    forall i v w, nth_error rows i = Some v -> nth_error rows' i = Some w ->
      exists W, mat_eq 3 (mat_mul 3 (full 3 W) (full 3 (values v))) mat_id /\ near_but5 w W.
Proof.
  intros L s rows B Hs Hd Hne HW HB Hnz; pose proof (repr_rows _ _ _ Hs) as Rr; unfold rows_of_size in Rr; rewrite Forall_forall in Rr.
  unfold wholes in HW; rewrite Forall_forall in HW.
  assert (G : forall v, In v rows -> @inv9_item F64 (f64_num L) v = Ok (got (@inv9_item F64 (f64_num L) v)) /\
    len (got (@inv9_item F64 (f64_num L) v)) = 9 /\ near_but5 (got (@inv9_item F64 (f64_num L) v)) (adj9 (values v))).
  { intros v Hv; destruct (proj2 (inv9_item_whole L B v HB (Rr v Hv) (HW v Hv)) (Hnz v Hv)) as (w & E & F); rewrite E; cbn [got].
    split; [reflexivity|]; split; [|exact F].
    destruct (cofactors9 (values v) ltac:(rewrite len_map; apply Rr, Hv) (Hnz v Hv)) as [L9 _].
    rewrite <- L9; unfold len; f_equal; apply F. }
  exists (map (fun v => got (@inv9_item F64 (f64_num L) v)) rows); split; [|split; [apply map_length|]].
  - unfold inv; rewrite (isValid_repr _ _ _ Hs), (repr_itemSize _ _ _ Hs), Hd; cbn [Z.ltb Z.compare negb Z.eqb Pos.eqb orb andb].
    apply (map_rows_ok s 9 rows inv9_item (fun v => got (inv9_item v)) 9 Hs Hne ltac:(lia)).
    intros v Hv; destruct (G v Hv) as (E & L9 & _); split; assumption.
  - intros i v w Ev Ew; rewrite nth_error_map, Ev in Ew; injection Ew as <-; apply nth_error_In in Ev.
    exists (adj9 (values v)); split; [|apply G, Ev].
    apply cofactors9; [rewrite len_map; apply Rr, Ev|apply Hnz, Ev].
Qed.
Print Assumptions C126_inverse_full_partial.

(** one singular item is enough to be refused *)
Theorem C126_singular_partial :
  forall (L : Libm) (s : Serie F64) k (M : list R -> Mat) rows B,
  (k = 6 /\ M = sym3 \/ k = 9 /\ M = full 3) -> repr s k rows -> dimension s = 3 -> wholes B rows -> 0 <= B <= 2 ^ 16 ->
  (exists v, In v rows /\ determinant 3 (M (values v)) = 0%R) -> @inv F64 (f64_num L) s = Throw RuntimeError.
Proof.
  intros L s k M rows B Hk Hs Hd HW HB (v & Hv & Hz); pose proof (repr_rows _ _ _ Hs) as Rr; unfold rows_of_size in Rr; rewrite Forall_forall in Rr.
  unfold wholes in HW; rewrite Forall_forall in HW.
  unfold inv; rewrite (isValid_repr _ _ _ Hs), (repr_itemSize _ _ _ Hs), Hd.
  destruct Hk as [[-> ->]|[-> ->]]; cbn [Z.ltb Z.compare negb Z.eqb Pos.eqb orb andb].
  - apply (map_rows_throw s 6 rows (@inv6_item F64 (f64_num L)) (fun v => got (@inv6_item F64 (f64_num L) v)) 6 RuntimeError Hs).
    + intros r Hr; destruct (inv6_item_whole L B r HB (Rr r Hr) (HW r Hr)) as [A C].
      destruct (Req_dec (determinant 3 (sym3 (values r))) 0) as [Z0|Nz]; [right; apply A, Z0|left].
      destruct (C Nz) as (w & E & F); rewrite E; cbn [got]; split; [reflexivity|].
      destruct (cofactors6 (values r) ltac:(rewrite len_map; apply Rr, Hr) Nz) as [L6 _].
      rewrite <- L6; unfold len; f_equal; clear - F; induction F; cbn; congruence.
    + exists v; split; [exact Hv|]; apply (inv6_item_whole L B v HB (Rr v Hv) (HW v Hv)), Hz.
  - apply (map_rows_throw s 9 rows (@inv9_item F64 (f64_num L)) (fun v => got (@inv9_item F64 (f64_num L) v)) 9 RuntimeError Hs).
    + intros r Hr; destruct (inv9_item_whole L B r HB (Rr r Hr) (HW r Hr)) as [A C].
      destruct (Req_dec (determinant 3 (full 3 (values r))) 0) as [Z0|Nz]; [right; apply A, Z0|left].
      destruct (C Nz) as (w & E & F); rewrite E; cbn [got]; split; [reflexivity|].
      destruct (cofactors9 (values r) ltac:(rewrite len_map; apply Rr, Hr) Nz) as [L9 _].
      rewrite <- L9; unfold len; f_equal; apply F.
    + exists v; split; [exact Hv|]; apply (inv9_item_whole L B v HB (Rr v Hv) (HW v Hv)), Hz.
Qed.
Print Assumptions C126_singular_partial.

(** ** Larger entries *)
Lemma values_lit zs : Forall (fun z => Z.abs z <= 2 ^ 53) zs -> values (map f64_of_Z zs) = map IZR zs.
Proof. induction 1 as [|z zs H _ IH]; [reflexivity|]; cbn [map]; rewrite IH; destruct (f64_of_Z_correct z H) as (E & _ & _); rewrite E; reflexivity. Qed.

(** the third column is the first less the second, so the matrix is singular; the computed determinant is -2 and the matrix
    gets an inverse *)
Theorem C126_singular_refuted :
  let v := map f64_of_Z [-3554; -212953; 209399; -221483; 8530; 200869] in
  determinant 3 (sym3 (values v)) = 0%R /\ Forall (whole (2 ^ 18)) v /\
  match @inv F64 F64N (mk 6 [v] 3) with
  | Ok w => itemSize w = 6 /\ count w = 1 /\ forallb (fun x => is_finite x && negb (Beqb x #0)) (s_ w) = true
  | _ => False
  end.
Proof.
  cbv zeta; split; [|split].
  - rewrite values_lit by (repeat first [apply Forall_cons | apply Forall_nil]; lia); cbn [map]; det_unfold; unfold sym3; cbn; ring.
  - cbn [map]; repeat first [apply Forall_cons | apply Forall_nil | apply whole_lit; lia].
  - vm_compute; repeat split; reflexivity.
Qed.
Print Assumptions C126_singular_refuted.

(** a multiple of the identity: the inverse of 2^400 is the zero matrix, as the determinant is infinite; 2^-12 is refused *)
Theorem C126_scale_refuted :
  let big := f64_of_Z (2 ^ 400) in let small := f64_div #1 (f64_of_Z 4096) in
  (is_finite big = true /\ Bltb #0 big = true /\ is_finite (f64_div #1 big) = true /\ Bltb #0 (f64_div #1 big) = true) /\
  match @inv F64 F64N (mk 6 [[big; #0; #0; big; #0; big]] 3), @inv F64 F64N (mk 9 [[big; #0; #0; #0; big; #0; #0; #0; big]] 3) with
  | Ok p, Ok q => forallb (fun x => Beqb x #0) (s_ p) = true /\ forallb (fun x => Beqb x #0) (s_ q) = true /\ len (s_ p) = 6 /\ len (s_ q) = 9
  | _, _ => False
  end /\
  @inv F64 F64N (mk 6 [[small; #0; #0; small; #0; small]] 3) = Throw RuntimeError /\
  @inv F64 F64N (mk 9 [[small; #0; #0; #0; small; #0; #0; #0; small]] 3) = Throw RuntimeError.
Proof. vm_compute; repeat split; reflexivity. Qed.
Print Assumptions C126_scale_refuted.

Example C126_ex :
  let rows := [map f64_of_Z [2; 1; 0; 2; 0; 1]; map f64_of_Z [1; 2; 3; 4; 5; 7]] in
  repr (mk 6 rows 3) 6 rows /\ dimension (mk 6 rows 3) = 3 /\ wholes 7 rows /\
  (forall v, In v rows -> determinant 3 (sym3 (values v)) <> 0%R) /\
  @inv F64 F64N (mk 6 [map f64_of_Z [1; 2; 3; 4; 6; 9]] 3) = Throw RuntimeError /\
  determinant 3 (sym3 (values (map f64_of_Z [1; 2; 3; 4; 6; 9]))) = 0%R.
Proof.
  cbv zeta; split; [repr_ex|]; split; [reflexivity|]; split; [cbn [map]; whole_ex|]; split; [|split].
  - intros v [<-|[<-|[]]]; rewrite values_lit by (repeat first [apply Forall_cons | apply Forall_nil]; lia); cbn [map].
    + replace (determinant 3 (sym3 [2; 1; 0; 2; 0; 1]%R)) with 3%R by (det_unfold; unfold sym3; cbn; ring); lra.
    + replace (determinant 3 (sym3 [1; 2; 3; 4; 5; 7]%R)) with (-1)%R by (det_unfold; unfold sym3; cbn; ring); lra.
  - vm_compute; reflexivity.
  - rewrite values_lit by (repeat first [apply Forall_cons | apply Forall_nil]; lia); cbn [map]; det_unfold; unfold sym3; cbn; ring.
Qed.
