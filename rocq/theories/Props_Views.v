(** * C89, C90, C91: the views Vector and Matrix. *)
From Verif Require Import Base Num Serie Spec BaseFacts SerieFacts Functional FunctionalFacts Utils Mathf MathFacts MinMaxFacts Views AlgebraFacts ViewFacts.
From Verif Require Import F64 F64Facts F64Arith RNum LinSpec Props_Functional Props_Mean Props_Algebra Props_Det.
From Coq Require Import Reals Lra Psatz.
From Flocq Require Import Core IEEE754.BinarySingleNaN.
Open Scope Z_scope.
Opaque f64_of_Z.

(** ** C89 *)
Theorem C89_componentwise :
  forall (T : Type) (NT : Num T) (u v : list T) (c : T), len u = len v ->
  v_add u v = Ok (map2 n_add u v) /\ v_sub u v = Ok (map2 n_sub u v) /\ v_mult u v = Ok (map2 n_mul u v) /\
  v_scale u c = map (fun x => n_mul x c) u /\
  v_dot u v = Ok (fold_left n_add (map2 n_mul u v) (n_of_Z 0)).
Proof.
  intros T NT u v c Hl; unfold v_add, v_sub, v_mult, v_zip, v_scale, v_dot.
  rewrite !upd_each_map2 by congruence; repeat split; try reflexivity.
  rewrite sum_prod_loop by exact Hl; reflexivity.
Qed.
Print Assumptions C89_componentwise.
(** reading a component; there is no range check *)
Theorem C89_at :
  forall (T : Type) (u : list T) i, 0 <= i ->
  (forall x, nth_error u (Z.to_nat i) = Some x -> v_at u i = Ok x) /\
  (len u <= i -> v_at u i = UB) /\
  (len u < two32 -> v_length u = len u).
Proof.
  intros T u i Hi; unfold v_at, v_length; split; [|split].
  - intros x E; rewrite <- (Z2Nat.id i Hi); apply rd_nat; exact E.
  - intros Hl; apply rd_out; right; exact Hl.
  - intros Hl; apply u32_small; pose proof (len_nonneg u); unfold two32 in Hl; lia.
Qed.
Print Assumptions C89_at.
Theorem C89_dot :
  forall (u v : list R), len u = len v -> @v_dot R r_num u v = Ok (inner u v).
Proof.
  intros u v Hl; unfold v_dot; rewrite (@sum_prod_loop R r_num u v Hl), sum_prod_inner; reflexivity.
Qed.
Print Assumptions C89_dot.

(** the accumulator of [norm] is an [int] *)
Theorem C89_norm_refuted :
  (exists u, @v_norm R r_num u = Ok 0%R /\ inner u u = (1 / 2)%R) /\
  (exists u, @v_norm R r_num u = UB) /\
  (exists u, @v_norm R r_num u = Ok (sqrt 2)%R /\ (inner u u > 2)%R).
Proof.
  assert (S : forall z a x, (Ztrunc (IZR a + x * x) = z)%R -> - two31 <= z < two31 -> @n_to_s32 R r_num (IZR a + x * x)%R = Ok z).
  { intros z a x E Hz; unfold n_to_s32; cbn [n_to_Z r_num]; rewrite E.
    destruct (Z.leb_spec (- two31) z), (Z.ltb_spec z two31); try lia; reflexivity. }
  assert (F0 : Ztrunc (IZR 0 + 1 / 2 * (1 / 2))%R = 0) by (rewrite Ztrunc_floor by lra; apply Zfloor_imp; change (0 + 1) with 1; lra).
  assert (F1 : forall a x, (0 <= IZR a + x * x)%R -> (1 <= IZR a + x * x - IZR a < 2)%R -> Ztrunc (IZR a + x * x) = a + 1).
  { intros a x H0 H1; rewrite Ztrunc_floor by lra; apply Zfloor_imp; rewrite !plus_IZR; lra. }
  split; [|split].
  - exists [1 / 2; 1 / 2]%R; split; [|unfold inner, LinSpec.total; cbn [map2 fold_right]; lra].
    unfold v_norm; cbn [foldO]; cbn [n_add n_mul n_of_Z r_num].
    rewrite (S 0 0 (1 / 2)%R F0) by (unfold two31; lia); cbn [obind].
    rewrite (S 0 0 (1 / 2)%R F0) by (unfold two31; lia); cbn [obind]; cbn [n_sqrt n_of_Z r_num]; rewrite sqrt_0; reflexivity.
  - exists [IZR 65536]; unfold v_norm; cbn [foldO]; cbn [n_add n_mul n_of_Z r_num].
    unfold n_to_s32; cbn [n_to_Z r_num]; rewrite <- mult_IZR, <- plus_IZR, Ztrunc_IZR; reflexivity.
  - exists [11 / 10; 11 / 10]%R; split; [|unfold inner, LinSpec.total; cbn [map2 fold_right]; lra].
    unfold v_norm; cbn [foldO]; cbn [n_add n_mul n_of_Z r_num].
    rewrite (S 1 0 (11 / 10)%R) by (try apply F1; unfold two31; try lia; lra); cbn [obind].
    rewrite (S 2 1 (11 / 10)%R) by (try apply F1; unfold two31; try lia; lra); cbn [obind]; reflexivity.
Qed.
Print Assumptions C89_norm_refuted.

Theorem C89_norm_partial :
  forall ks : list Z, let u := map IZR ks in
  (inner u u < IZR two31)%R ->
  @v_norm R r_num u = Ok (sqrt (inner u u)) /\
  (inner u u <> 0%R -> exists w, @v_normalize R r_num u = Ok w /\ inner w w = 1%R /\ w = map (fun x => x / sqrt (inner u u))%R u).
Proof.
  intros ks u Hu.
  assert (G : forall ks a, 0 <= a -> (IZR a + inner (map IZR ks) (map IZR ks) < IZR two31)%R ->
    exists z, foldO (fun acc x => @n_to_s32 R r_num (IZR acc + x * x)%R) (map IZR ks) a = Ok z /\ IZR z = (IZR a + inner (map IZR ks) (map IZR ks))%R).
  { clear; induction ks as [|k ks IH]; intros a Ha; [unfold inner; cbn; exists a; split; [reflexivity|lra]|].
    assert (E : inner (map IZR (k :: ks)) (map IZR (k :: ks)) = (IZR k * IZR k + inner (map IZR ks) (map IZR ks))%R) by reflexivity.
    rewrite E; intros Hb; pose proof (proj1 (inner_pos (map IZR ks))) as P.
    cbn [map foldO]; unfold n_to_s32 at 1; cbn [n_to_Z r_num]; rewrite <- mult_IZR, <- plus_IZR, Ztrunc_IZR.
    assert (L : a + k * k < two31) by (apply lt_IZR; rewrite plus_IZR, mult_IZR; lra).
    replace ((- two31 <=? a + k * k) && (a + k * k <? two31))%bool with true by (symmetry; apply andb_true_intro; split; [apply Z.leb_le; unfold two31; nia|apply Z.ltb_lt; exact L]).
    cbn [obind]; destruct (IH (a + k * k) ltac:(nia)) as (z & Ez & Rz); [rewrite plus_IZR, mult_IZR; lra|].
    exists z; split; [exact Ez|rewrite Rz, plus_IZR, mult_IZR; lra]. }
  assert (N : @v_norm R r_num u = Ok (sqrt (inner u u))).
  { destruct (G ks 0 ltac:(lia)) as (z & Ez & Rz); [fold u; lra|]; fold u in Ez, Rz.
    unfold v_norm; cbn [n_add n_mul n_of_Z r_num]; rewrite Ez; cbn [obind n_sqrt r_num]; do 2 f_equal; lra. }
  split; [exact N|]; intros Nz; unfold v_normalize; rewrite N; cbn [obind n_div r_num]; eexists; split; [reflexivity|]; split; [|reflexivity].
  pose proof (proj1 (inner_pos u)) as P; assert (Sn : (0 < sqrt (inner u u))%R) by (apply sqrt_lt_R0; lra).
  assert (E : forall c l, c <> 0%R -> inner (map (fun x => x / c)%R l) (map (fun x => x / c)%R l) = (inner l l / (c * c))%R).
  { clear; intros c l Hc; unfold inner, LinSpec.total; induction l as [|x l IH]; cbn [map map2 fold_right]; [field; exact Hc|rewrite IH; field; exact Hc]. }
  rewrite E by lra; rewrite sqrt_sqrt by exact P; field; exact Nz.
Qed.
Print Assumptions C89_norm_partial.

Example C89_ex : let u := map IZR [3; 4] in (inner u u < IZR two31)%R /\ inner u u = 25%R.
Proof. cbv zeta; unfold inner, LinSpec.total; cbn [map map2 fold_right]; unfold two31; split; lra. Qed.

(** ** C90 *)
(** number of pairs i <= j < m *)
Definition triangle (m : nat) : Z := Z.of_nat m * (Z.of_nat m + 1) / 2.

Definition packed (m i j : nat) : Z := Z.of_nat i * (2 * Z.of_nat m - 1 - Z.of_nat i) / 2 + Z.of_nat j.
Lemma even_prod m i : (Z.of_nat i * (2 * Z.of_nat m - 1 - Z.of_nat i) = 2 * (Z.of_nat i * (2 * Z.of_nat m - 1 - Z.of_nat i) / 2))%Z.
Proof.
  set (a := Z.of_nat i); set (b := Z.of_nat m).
  assert (H : (a * (2 * b - 1 - a)) mod 2 = 0).
  { destruct (Z.Even_or_Odd a) as [[k ->]|[k ->]].
    - replace (2 * k * (2 * b - 1 - 2 * k)) with ((k * (2 * b - 1 - 2 * k)) * 2) by ring; apply Z_mod_mult.
    - replace ((2 * k + 1) * (2 * b - 1 - (2 * k + 1))) with (((2 * k + 1) * (b - 1 - k)) * 2) by ring; apply Z_mod_mult. }
  apply Z_div_exact_full_2; [lia|exact H].
Qed.
Lemma tri_even m : Z.of_nat m * (Z.of_nat m + 1) = 2 * triangle m.
Proof.
  unfold triangle; apply Z_div_exact_full_2; [lia|]; set (a := Z.of_nat m).
  destruct (Z.Even_or_Odd a) as [[k ->]|[k ->]].
  - replace (2 * k * (2 * k + 1)) with ((k * (2 * k + 1)) * 2) by ring; apply Z_mod_mult.
  - replace ((2 * k + 1) * (2 * k + 1 + 1)) with (((2 * k + 1) * (k + 1)) * 2) by ring; apply Z_mod_mult.
Qed.
(** the rows of the upper triangle, one after the other *)
Lemma packed_enumerates m : map (fun p => packed m (fst p) (snd p)) (upper m) = iota (triangle m).
Proof.
  assert (G : forall r, (r <= m)%nat -> exists s, Z.of_nat s = Z.of_nat r * (2 * Z.of_nat m - 1 - Z.of_nat r) / 2 + Z.of_nat r /\
    map (fun p => packed m (fst p) (snd p)) (grid (seq 0 r) (fun i => seq i (m - i))) = seqZ 0 s).
  { induction r as [|r IH]; intros Hr; [exists 0%nat; split; reflexivity|].
    destruct (IH ltac:(lia)) as (s & Es & E); exists (s + (m - r))%nat; split.
    - pose proof (even_prod m r); pose proof (even_prod m (S r)); nia.
    - replace (S r) with (r + 1)%nat at 1 by lia; rewrite seq_app; unfold grid in *; rewrite flat_map_app, map_app, E, seqZ_app; f_equal.
      cbn [seq flat_map]; rewrite app_nil_r, map_map; cbn [fst snd]; unfold seqZ; cbn [Nat.add].
      assert (Q : forall n a b, Z.of_nat a = Z.of_nat r * (2 * Z.of_nat m - 1 - Z.of_nat r) / 2 + Z.of_nat b -> map (packed m r) (seq b n) = map Z.of_nat (seq a n)).
      { induction n as [|n IHn]; intros a b Hab; [reflexivity|]; cbn [seq map]; f_equal; [unfold packed; lia|apply IHn; lia]. }
      apply Q; lia. }
  destruct (G m (Nat.le_refl m)) as (s & Es & E); unfold upper; rewrite E, iota_seqZ; f_equal.
  pose proof (even_prod m m); pose proof (tri_even m); nia.
Qed.

(** the arithmetic of indices is exact *)
Definition exact_packed (T : Type) (NT : Num T) : Prop :=
  forall m i j, triangle m <= two32 -> (i <= j < m)%nat ->
  @n_to_u32 T NT (n_add (n_mul (n_mul (n_ratio 1 2) (n_of_Z (Z.of_nat i))) (n_of_Z (2 * Z.of_nat m - 1 - Z.of_nat i))) (n_of_Z (Z.of_nat j))) = Ok (packed m i j).

Lemma packed_range m i j : (i <= j < m)%nat -> 0 <= packed m i j < triangle m.
Proof. intros H; unfold packed; pose proof (even_prod m i); pose proof (tri_even m); nia. Qed.

Lemma exact_R : exact_packed R r_num.
Proof.
  intros m i j Hm Hij; pose proof (packed_range m i j Hij) as P.
  cbn [n_add n_mul n_of_Z r_num]; unfold n_ratio; cbn [n_div n_of_Z r_num].
  replace (1 / 2 * IZR (Z.of_nat i) * IZR (2 * Z.of_nat m - 1 - Z.of_nat i) + IZR (Z.of_nat j))%R with (IZR (packed m i j)).
  - unfold n_to_u32; cbn [n_to_Z r_num]; rewrite Ztrunc_IZR.
    destruct (Z.leb_spec 0 (packed m i j)), (Z.ltb_spec (packed m i j) two32); try lia; reflexivity.
  - unfold packed; rewrite plus_IZR; f_equal; rewrite Rmult_assoc, <- mult_IZR.
    pose proof (f_equal IZR (even_prod m i)) as E; rewrite (mult_IZR 2) in E; rewrite E; lra.
Qed.

Lemma fmt_half n : Z.abs n <= 2 ^ 52 -> fmt (IZR n / 2).
Proof.
  intros Hn; apply (generic_format_FLT radix2 (SpecFloat.emin 53 1024) 53); exists (Float radix2 n (-1)); simpl.
  - unfold F2R; simpl; lra.
  - change (Z.pow_pos 2 53) with (2 ^ 53); lia.
  - unfold SpecFloat.emin; lia.
Qed.
Lemma half_lt_emax n : Z.abs n <= 2 ^ 52 -> (Rabs (IZR n / 2) < bpow radix2 1024)%R.
Proof.
  intros Hn; apply Rle_lt_trans with (Rabs (IZR n)); [|apply int_lt_emax; lia].
  unfold Rdiv; rewrite Rabs_mult, (Rabs_right (/ 2)) by lra; pose proof (Rabs_pos (IZR n)); lra.
Qed.
Lemma f64_mul_half (x y : F64) n : is_finite x = true -> is_finite y = true -> (B2R x * B2R y = IZR n / 2)%R -> Z.abs n <= 2 ^ 52 ->
  B2R (f64_mul x y) = (IZR n / 2)%R /\ is_finite (f64_mul x y) = true.
Proof.
  intros Fx Fy E Hn; unfold f64_mul; pose proof (Bmult_correct 53 1024 F64_prec F64_emax mode_NE x y) as H; rewrite E in H; unfold round_mode in H.
  assert (Er : rnd (IZR n / 2) = (IZR n / 2)%R) by (apply round_generic; [apply valid_rnd_N|apply fmt_half; exact Hn]).
  rewrite Er, Rlt_bool_true in H by (apply half_lt_emax; exact Hn).
  destruct H as (H1 & H2 & _); split; [exact H1|rewrite H2, Fx, Fy; reflexivity].
Qed.
Lemma f64_half : B2R (f64_div #1 #2) = (1 / 2)%R /\ is_finite (f64_div #1 #2) = true.
Proof.
  destruct (f64_of_Z_correct 1 ltac:(lia)) as (R1 & F1 & _); destruct (f64_of_Z_correct 2 ltac:(lia)) as (R2 & F2 & _).
  unfold f64_div; pose proof (Bdiv_correct 53 1024 F64_prec F64_emax mode_NE #1 #2) as H; rewrite R1, R2 in H; unfold round_mode in H.
  specialize (H ltac:(lra)); assert (Er : rnd (1 / 2) = (1 / 2)%R) by (apply round_generic; [apply valid_rnd_N|apply (fmt_half 1); lia]).
  rewrite Er, Rlt_bool_true in H by (apply (half_lt_emax 1); lia).
  destruct H as (H1 & H2 & _); split; [exact H1|rewrite H2; exact F1].
Qed.
Lemma exact_F64 (L : Libm) : exact_packed F64 (f64_num L).
Proof.
  intros m i j Hm Hij; pose proof (packed_range m i j Hij) as P; pose proof (even_prod m i) as Ev; pose proof (tri_even m) as Et.
  assert (Bm : Z.of_nat m < 2 ^ 17) by (unfold two32 in Hm; nia).
  change (@n_add F64 (f64_num L)) with f64_add; change (@n_mul F64 (f64_num L)) with f64_mul; unfold n_ratio.
  change (@n_div F64 (f64_num L)) with f64_div; change (@n_of_Z F64 (f64_num L)) with f64_of_Z.
  destruct f64_half as [Rh Fh]; set (h := f64_div #1 #2) in *; clearbody h.
  destruct (f64_of_Z_correct (Z.of_nat i) ltac:(lia)) as (Ri & Fi & _).
  destruct (f64_of_Z_correct (2 * Z.of_nat m - 1 - Z.of_nat i) ltac:(lia)) as (Rk & Fk & _).
  destruct (f64_of_Z_correct (Z.of_nat j) ltac:(lia)) as (Rj & Fj & _).
  destruct (f64_mul_half h (f64_of_Z (Z.of_nat i)) (Z.of_nat i) Fh Fi) as (Ra & Fa); [rewrite Rh, Ri; lra|lia|].
  destruct (f64_mul_half (f64_mul h (f64_of_Z (Z.of_nat i))) (f64_of_Z (2 * Z.of_nat m - 1 - Z.of_nat i)) (Z.of_nat i * (2 * Z.of_nat m - 1 - Z.of_nat i)) Fa Fk) as (Rb & Fb).
  { rewrite Ra, Rk, mult_IZR; lra. }
  { nia. }
  set (b := f64_mul (f64_mul h _) _) in *; clearbody b; clear Ra Fa.
  assert (Eb : (B2R b + B2R (f64_of_Z (Z.of_nat j)) = IZR (packed m i j))%R).
  { rewrite Rb, Rj, Ev, mult_IZR; unfold packed; rewrite plus_IZR; lra. }
  unfold f64_add; pose proof (Bplus_correct 53 1024 F64_prec F64_emax mode_NE _ _ Fb Fj) as H; rewrite Eb in H; unfold round_mode in H.
  change (round radix2 (SpecFloat.fexp 53 1024) ZnearestE (IZR (packed m i j))) with (rnd (IZR (packed m i j))) in H.
  rewrite (rnd_int (packed m i j)), Rlt_bool_true in H by (try apply int_lt_emax; unfold two32 in Hm; lia).
  destruct H as (H1 & H2 & _); set (r := Bplus mode_NE b (f64_of_Z (Z.of_nat j))) in *.
  unfold n_to_u32; change (@n_to_Z F64 (f64_num L) r) with (if is_finite r then Some (Btrunc r) else None).
  assert (Q : Btrunc r = packed m i j).
  { apply eq_IZR; rewrite (Btrunc_correct 53 1024 F64_emax r), H1.
    rewrite (round_generic radix2 (FIX_exp 0) Ztrunc); [reflexivity|].
    apply (generic_format_FIX radix2 0); exists (Float radix2 (packed m i j) 0); [unfold F2R; simpl; ring|reflexivity]. }
  rewrite H2, Q; destruct (Z.leb_spec 0 (packed m i j)), (Z.ltb_spec (packed m i j) two32); try lia; reflexivity.
Qed.

Lemma indexS_ok (T : Type) (NT : Num T) m i j : exact_packed T NT -> triangle m <= two32 -> (i <= j < m)%nat ->
  @indexS T NT (Z.of_nat i) (Z.of_nat j) (Z.of_nat m) = Ok (packed m i j) /\
  @indexS T NT (Z.of_nat j) (Z.of_nat i) (Z.of_nat m) = Ok (packed m i j).
Proof.
  intros X Hm Hij; pose proof (tri_even m) as Et; assert (Bm : Z.of_nat m < 2 ^ 17) by (unfold two32 in Hm; nia).
  unfold indexS, u32; rewrite !Z.mod_small by (fold two32; unfold two32; lia).
  split.
  - destruct (Z.ltb_spec (Z.of_nat j) (Z.of_nat i)); [lia|apply X; assumption].
  - destruct (Z.ltb_spec (Z.of_nat i) (Z.of_nat j)); [apply X; assumption|].
    assert (i = j) by lia; subst; apply X; [assumption|lia].
Qed.

(** the number of entries fits the 32-bit index; [upper] lists the pairs i <= j < m row by row *)
Lemma packed_bijection (T : Type) (NT : Num T) : exact_packed T NT -> forall m, triangle m <= two32 ->
  (forall i j, (i < m)%nat -> (j < m)%nat -> @indexS T NT (Z.of_nat i) (Z.of_nat j) (Z.of_nat m) = @indexS T NT (Z.of_nat j) (Z.of_nat i) (Z.of_nat m)) /\
  mapO (fun p => @indexS T NT (Z.of_nat (fst p)) (Z.of_nat (snd p)) (Z.of_nat m)) (upper m) = Ok (iota (triangle m)) /\
  (forall k, 0 <= k < triangle m -> exists! p, In p (upper m) /\ @indexS T NT (Z.of_nat (fst p)) (Z.of_nat (snd p)) (Z.of_nat m) = Ok k).
Proof.
  intros X m Hm.
  assert (U : forall p, In p (upper m) -> @indexS T NT (Z.of_nat (fst p)) (Z.of_nat (snd p)) (Z.of_nat m) = Ok (packed m (fst p) (snd p))).
  { intros [i j] H; apply in_upper in H; apply indexS_ok; assumption. }
  split; [|split].
  - intros i j Hi Hj; destruct (Nat.le_gt_cases i j).
    + destruct (indexS_ok T NT m i j X Hm ltac:(lia)) as [-> ->]; reflexivity.
    + destruct (indexS_ok T NT m j i X Hm ltac:(lia)) as [-> ->]; reflexivity.
  - rewrite (mapO_ok _ (fun p => packed m (fst p) (snd p)) _ U), packed_enumerates; reflexivity.
  - intros k Hk; assert (Hin : In k (map (fun p => packed m (fst p) (snd p)) (upper m))) by (rewrite packed_enumerates; apply in_iota; exact Hk).
    apply in_map_iff in Hin; destruct Hin as (p & Ep & Hp); exists p; split; [split; [exact Hp|rewrite U by exact Hp; congruence]|].
    intros q [Hq Eq]; rewrite U in Eq by exact Hq; injection Eq as Eq.
    assert (N : NoDup (map (fun p => packed m (fst p) (snd p)) (upper m))).
    { rewrite packed_enumerates; unfold iota; apply FinFun.Injective_map_NoDup; [intros x y; apply Nat2Z.inj|apply seq_NoDup]. }
    clear - N Hp Hq Ep Eq; revert N Hp Hq; generalize (upper m) as l; induction l as [|x l IH]; intros N Hp Hq; [destruct Hp|].
    cbn [map] in N; inversion N as [|? ? Nx N']; subst.
    destruct Hp as [->|Hp], Hq as [->|Hq]; try reflexivity; [exfalso; apply Nx|exfalso; apply Nx|apply IH; assumption].
    + rewrite <- Eq; apply (in_map (fun p => packed m (fst p) (snd p))); exact Hq.
    + rewrite Eq; apply (in_map (fun p => packed m (fst p) (snd p))); exact Hp.
Qed.

Theorem C90_packed_index :
  forall (L : Libm) m, triangle m <= two32 ->
  (forall i j, In (i, j) (upper m) <-> (i <= j < m)%nat) /\
  (forall i j, (i < m)%nat -> (j < m)%nat ->
     @indexS F64 (f64_num L) (Z.of_nat i) (Z.of_nat j) (Z.of_nat m) = @indexS F64 (f64_num L) (Z.of_nat j) (Z.of_nat i) (Z.of_nat m)) /\
  mapO (fun p => @indexS F64 (f64_num L) (Z.of_nat (fst p)) (Z.of_nat (snd p)) (Z.of_nat m)) (upper m) = Ok (iota (triangle m)) /\
  (forall k, 0 <= k < triangle m ->
     exists! p, In p (upper m) /\ @indexS F64 (f64_num L) (Z.of_nat (fst p)) (Z.of_nat (snd p)) (Z.of_nat m) = Ok k).
Proof. intros L m Hm; split; [intros; apply in_upper|apply packed_bijection; [apply exact_F64|exact Hm]]. Qed.
Print Assumptions C90_packed_index.

Example C90_ex : triangle 3 <= two32 /\ triangle (Z.to_nat 92681) <= two32 /\ upper 3 = [(0, 0); (0, 1); (0, 2); (1, 1); (1, 2); (2, 2)]%nat.
Proof.
  split; [vm_compute; congruence|]; split; [|reflexivity].
  unfold triangle; rewrite Z2Nat.id by lia; vm_compute; congruence.
Qed.

(** ** C91 *)
Lemma upper_length n : Z.of_nat (length (upper n)) = triangle n.
Proof.
  pose proof (f_equal (@length Z) (packed_enumerates n)) as E; rewrite map_length in E; rewrite E; unfold iota; rewrite map_length, seq_length.
  pose proof (tri_even n); apply Z2Nat.id; lia.
Qed.
Lemma upto_fold n f : fold_left Rplus (map f (seq 0 n)) 0%R = upto n f.
Proof. rewrite fold_left_sum; unfold upto, sumR, LinSpec.total; lra. Qed.
Lemma entry_full (v : list R) n i j : @entry R r_num v n i j = full n v i j.
Proof. reflexivity. Qed.

Section MatrixOps.
  Context {T : Type} {NT : Num T}.
  Variable M : matrix T.
  Variable n : nat.
  Hypothesis V : views M n.
  Notation A := (entry (m_data M) n).

  Lemma trace_ok : m_trace M = Ok (fold_left n_add (map (fun i => A i i) (seq 0 n)) (n_of_Z 0)).
  Proof.
    unfold m_trace; pose proof V as (_ & Hm & _); rewrite Hm, iota_nat, foldO_map.
    apply (fold_loop (fun i => m_at M (Z.of_nat i) (Z.of_nat i)) (fun i => A i i) n_add).
    intros i Hi; apply in_seq in Hi; apply m_at_ok; [exact V|lia|lia].
  Qed.
  Lemma isSymmetric_ok : m_isSymmetric M = Ok (forallb (fun p => n_eqb (A (fst p) (snd p)) (A (snd p) (fst p))) (upper n)).
  Proof.
    unfold m_isSymmetric; pose proof V as (_ & Hm & _); rewrite Hm.
    rewrite (foldO_grid (fun (ok : bool) i j => if ok then let* x := m_at M i j in let* y := m_at M j i in Ok (n_eqb x y) else Ok false)).
    rewrite grid_upper, foldO_map.
    rewrite (forall_loop (fun p => let* x := m_at M (Z.of_nat (fst p)) (Z.of_nat (snd p)) in let* y := m_at M (Z.of_nat (snd p)) (Z.of_nat (fst p)) in Ok (n_eqb x y))
       (fun p => n_eqb (A (fst p) (snd p)) (A (snd p) (fst p)))); [reflexivity|].
    intros [i j] H; apply in_upper in H; cbn [fst snd]; rewrite (m_at_ok M n i j V) by lia; rewrite (m_at_ok M n j i V) by lia; reflexivity.
  Qed.
  Lemma array_ok : m_array M = let* sym := m_isSymmetric M in if sym then Ok (map (fun p => A (fst p) (snd p)) (upper n)) else Ok (m_data M).
  Proof.
    unfold m_array; pose proof V as (Ha & Hm & Hl & Hn); rewrite isSymmetric_ok; cbn [obind]; destruct (forallb _ (upper n)).
    - rewrite Hm, (foldO_grid (fun (ka : Z * list T) i j => let* x := m_at M i j in let* a := wr (snd ka) (fst ka) x in Ok (fst ka + 1, a))).
      rewrite grid_upper, foldO_map.
      assert (E : u32 (Z.of_nat n * u32 (Z.of_nat n + 1)) / 2 = triangle n).
      { unfold u32; unfold two32 in Hn; assert (Z.of_nat n < 65536) by nia; rewrite (Z.mod_small (Z.of_nat n + 1)) by (fold two32; unfold two32; lia).
        rewrite Z.mod_small by (fold two32; unfold two32; nia); reflexivity. }
      rewrite E; clear E.
      pose proof (fill_loop (fun p => m_at M (Z.of_nat (fst p)) (Z.of_nat (snd p))) (fun p => A (fst p) (snd p)) (upper n) [] (replicate (triangle n) (n_of_Z 0))) as F.
      cbn [app] in F; change (len []) with 0 in F; unfold zz; cbn [fst snd]; rewrite F; [reflexivity| |].
      + intros [i j] H; apply in_upper in H; cbn [fst snd]; apply m_at_ok; [exact V|lia|lia].
      + unfold replicate; rewrite repeat_length; pose proof (upper_length n); lia.
    - unfold m_view; rewrite Ha; reflexivity.
  Qed.
  Lemma multVec_ok v : length v = n ->
    m_multVec M v = Ok (map (fun i => fold_left n_add (map (fun j => n_mul (A i j) (nth j v (n_of_Z 0))) (seq 0 n)) (n_of_Z 0)) (seq 0 n)).
  Proof.
    intros Lv; unfold m_multVec, v_length, u32; pose proof V as (_ & Hm & Hl & Hn); rewrite Hm.
    unfold len; rewrite Lv, Z.mod_small by (fold two32; unfold two32 in *; nia); rewrite Z.eqb_refl; cbn [negb].
    rewrite !iota_nat, foldO_map.
    pose proof (accum_loop (fun i j => let* x := m_at M (Z.of_nat i) (Z.of_nat j) in let* y := rd v (Z.of_nat j) in Ok (n_mul x y))
      (fun i j => n_mul (A i j) (nth j v (n_of_Z 0))) n_add Z.of_nat (seq 0 n) (n_of_Z 0) (seq 0 n) []) as F.
    cbn [app] in F; unfold replicate; rewrite Nat2Z.id; rewrite seq_length in F.
    rewrite <- F; clear F.
    - apply foldO_ext; intros t i _; rewrite foldO_map; apply foldO_ext; intros t' j _.
      destruct (m_at M (Z.of_nat i) (Z.of_nat j)); cbn [obind]; try reflexivity; destruct (rd v (Z.of_nat j)); reflexivity.
    - intros i j Hi Hj; apply in_seq in Hi; apply in_seq in Hj; rewrite (m_at_ok M n i j V) by lia; cbn [obind].
      rewrite (rd_nat v j (nth j v (n_of_Z 0))) by (apply nth_error_nth'; lia); reflexivity.
    - intros j q E; assert (Hj : (j < n)%nat) by (rewrite <- (seq_length n 0); apply nth_error_Some; congruence).
      rewrite (nth_error_nth' _ 0%nat) in E by (rewrite seq_length; exact Hj); rewrite seq_nth in E by exact Hj; injection E as <-; reflexivity.
  Qed.
  Lemma transpose_ok : exists d, m_transpose M = Ok {| m_data := d; m_alive := false; m_m := Z.of_nat n |} /\ length d = (n * n)%nat /\
    forall i j, (i < n)%nat -> (j < n)%nat -> entry d n i j = A j i.
  Proof.
    unfold m_transpose; pose proof V as (Ha & Hm & Hl & Hn); unfold m_view at 1; rewrite Ha, Hm; cbn [obind].
    rewrite (foldO_grid (fun (kv : Z * list T) j i => let* x := m_at M i j in let* v := wr (snd kv) (fst kv) x in Ok (fst kv + 1, v))).
    rewrite grid_square, foldO_map.
    pose proof (fill_loop (fun p => m_at M (Z.of_nat (snd p)) (Z.of_nat (fst p))) (fun p => A (snd p) (fst p)) (square_grid n) [] (replicate (len (m_data M)) (n_of_Z 0))) as F.
    cbn [app] in F; change (len []) with 0 in F; unfold zz; cbn [fst snd]; rewrite F; clear F.
    - cbn [obind snd]; eexists; split; [reflexivity|]; split; [rewrite map_length; apply square_grid_length|].
      intros i j Hi Hj; unfold entry at 1; apply nth_error_nth; rewrite nth_error_map, square_grid_nth by assumption; reflexivity.
    - intros [j i] H; apply in_square_grid in H; cbn [fst snd]; apply m_at_ok; [exact V|lia|lia].
    - unfold replicate; rewrite repeat_length, square_grid_length; unfold len; lia.
  Qed.
  Lemma multMat_ok (N : matrix T) : views N n -> exists d, m_multMat M N = Ok {| m_data := d; m_alive := false; m_m := Z.of_nat n |} /\ length d = (n * n)%nat /\
    forall i j, (i < n)%nat -> (j < n)%nat -> entry d n i j = fold_left n_add (map (fun k => n_mul (A i k) (entry (m_data N) n k j)) (seq 0 n)) (n_of_Z 0).
  Proof.
    intros VN; unfold m_multMat; pose proof V as (Ha & Hm & Hl & Hn); pose proof VN as (Hb & Hk & HL & _); rewrite Hm, Hk, Z.eqb_refl; cbn [negb].
    unfold m_length, m_view; rewrite Hb; cbn [obind]; unfold len, u32; rewrite HL, Z.mod_small by (fold two32; lia).
    rewrite (foldO_grid (fun t i j => foldO (fun t k => let* x := m_at M i k in let* y := m_at N k j in
            let* old := rd t (index i j (Z.of_nat n)) in wr t (index i j (Z.of_nat n)) (n_add old (n_mul x y))) (iota (Z.of_nat n)) t)).
    rewrite grid_square, foldO_map.
    pose proof (accum_loop (fun p k => let* x := m_at M (Z.of_nat (fst p)) (Z.of_nat k) in let* y := m_at N (Z.of_nat k) (Z.of_nat (snd p)) in Ok (n_mul x y))
      (fun p k => n_mul (A (fst p) k) (entry (m_data N) n k (snd p))) n_add (fun p => index (Z.of_nat (fst p)) (Z.of_nat (snd p)) (Z.of_nat n))
      (seq 0 n) (n_of_Z 0) (square_grid n) []) as F.
    cbn [app] in F; rewrite square_grid_length in F; unfold replicate; rewrite Nat2Z.id.
    exists (map (fun p => fold_left n_add (map (fun k => n_mul (A (fst p) k) (entry (m_data N) n k (snd p))) (seq 0 n)) (n_of_Z 0)) (square_grid n)).
    split; [|split].
    - assert (E : forall t p, In p (square_grid n) -> foldO (fun t k => let* x := m_at M (fst (zz p)) k in let* y := m_at N k (snd (zz p)) in
            let* old := rd t (index (fst (zz p)) (snd (zz p)) (Z.of_nat n)) in wr t (index (fst (zz p)) (snd (zz p)) (Z.of_nat n)) (n_add old (n_mul x y))) (iota (Z.of_nat n)) t =
          foldO (fun t k => let* x := (let* x := m_at M (Z.of_nat (fst p)) (Z.of_nat k) in let* y := m_at N (Z.of_nat k) (Z.of_nat (snd p)) in Ok (n_mul x y)) in
            let* old := rd t (index (Z.of_nat (fst p)) (Z.of_nat (snd p)) (Z.of_nat n)) in
            wr t (index (Z.of_nat (fst p)) (Z.of_nat (snd p)) (Z.of_nat n)) (n_add old x)) (seq 0 n) t).
      { intros t p _; rewrite iota_nat, foldO_map; apply foldO_ext; intros t' k _; unfold zz; cbn [fst snd].
        destruct (m_at M (Z.of_nat (fst p)) (Z.of_nat k)); cbn [obind]; try reflexivity; destruct (m_at N (Z.of_nat k) (Z.of_nat (snd p))); reflexivity. }
      rewrite (foldO_ext _ _ _ _ E), F; [reflexivity| |].
      + intros [i j] k Hp Hk'; apply in_square_grid in Hp; apply in_seq in Hk'; cbn [fst snd].
        rewrite (m_at_ok M n i k V) by lia; rewrite (m_at_ok N n k j VN) by lia; reflexivity.
      + intros q [i j] E'; pose proof (square_grid_pos _ _ _ E') as Q; apply nth_error_In in E'; apply in_square_grid in E'; cbn [fst snd] in *.
        rewrite index_nat by (try exact Hn; tauto); rewrite Q; reflexivity.
    - rewrite map_length; apply square_grid_length.
    - intros i j Hi Hj; unfold entry at 1; apply nth_error_nth; rewrite nth_error_map, square_grid_nth by assumption; reflexivity.
  Qed.
End MatrixOps.

Lemma symSquared_ok (v : list R) n : len v = triangle n -> Z.of_nat (n * n) < two32 ->
  exists d, @symSquaredMatrix R r_num v = Ok {| m_data := d; m_alive := false; m_m := Z.of_nat n |} /\ length d = (n * n)%nat /\
    forall i j, (i <= j < n)%nat -> @entry R r_num d n i j = nth (Z.to_nat (packed n i j)) v 0%R /\ @entry R r_num d n j i = nth (Z.to_nat (packed n i j)) v 0%R.
Proof.
  intros Lv Hn; pose proof (tri_even n) as Te; unfold two32 in Hn; assert (Bn : Z.of_nat n < 65536) by nia.
  unfold symSquaredMatrix; cbv zeta; unfold u64; rewrite Z.mod_small by (fold two64; unfold two64; lia).
  cbn [n_sub n_div n_mul n_sqrt n_of_Z n_ltb r_num].
  assert (Em : ((sqrt (IZR (8 * len v + 1)) - 1) / 2 = IZR (Z.of_nat n))%R).
  { replace (8 * len v + 1) with ((2 * Z.of_nat n + 1) * (2 * Z.of_nat n + 1)) by nia; rewrite sqrt_sq by lia; rewrite plus_IZR, mult_IZR; lra. }
  rewrite Em, <- mult_IZR; unfold n_to_u32 at 1 2; cbn [n_to_Z r_num]; rewrite !Ztrunc_IZR.
  replace ((0 <=? Z.of_nat n) && (Z.of_nat n <? two32))%bool with true by (symmetry; apply andb_true_intro; split; [apply Z.leb_le|apply Z.ltb_lt]; unfold two32; lia).
  replace ((0 <=? Z.of_nat n * Z.of_nat n) && (Z.of_nat n * Z.of_nat n <? two32))%bool with true by (symmetry; apply andb_true_intro; split; [apply Z.leb_le|apply Z.ltb_lt]; unfold two32; lia).
  cbn [obind]; rewrite Rlt_bool_false by lra.
  rewrite (foldO_grid (fun w i j => let* p := @indexS R r_num i j (Z.of_nat n) in let* x := rd v p in wr w (index j i (Z.of_nat n)) x)).
  rewrite grid_square, foldO_map.
  assert (Tr : triangle n <= two32) by (unfold two32; nia).
  set (pk := fun p : nat * nat => packed n (Nat.min (fst p) (snd p)) (Nat.max (fst p) (snd p))).
  set (w0 := createArray (Z.of_nat n * Z.of_nat n) 0%R).
  assert (Lw : len w0 = Z.of_nat (n * n)).
  { unfold w0; assert (E : createArray (Z.of_nat n * Z.of_nat n) 0%R = replicate (Z.of_nat n * Z.of_nat n) 0%R) by reflexivity.
    rewrite E, len_replicate by lia; lia. }
  destruct (scatter_loop (fun p => let* k := @indexS R r_num (Z.of_nat (fst p)) (Z.of_nat (snd p)) (Z.of_nat n) in rd v k) (fun p => nth (Z.to_nat (pk p)) v 0%R)
    (fun p => index (Z.of_nat (snd p)) (Z.of_nat (fst p)) (Z.of_nat n)) (square_grid n) w0) as (d & Ed & Ld & Pd).
  - intros [i j] H; apply in_square_grid in H; cbn [fst snd].
    assert (E : @indexS R r_num (Z.of_nat i) (Z.of_nat j) (Z.of_nat n) = Ok (pk (i, j)) /\ 0 <= pk (i, j) < triangle n).
    { unfold pk; cbn [fst snd]; destruct (Nat.le_gt_cases i j).
      - rewrite Nat.min_l, Nat.max_r by lia; split; [apply (indexS_ok R r_num n i j exact_R Tr); lia|apply packed_range; lia].
      - rewrite Nat.min_r, Nat.max_l by lia; split; [apply (indexS_ok R r_num n j i exact_R Tr); lia|apply packed_range; lia]. }
    destruct E as [-> B]; cbn [obind]; rewrite <- (Z2Nat.id (pk (i, j))) at 1 by lia; apply rd_nat; apply nth_error_nth'; unfold len in Lv; lia.
  - intros [i j] H; apply in_square_grid in H; cbn [fst snd]; rewrite index_nat by (unfold two32; try lia; tauto); rewrite Lw; nia.
  - intros [i j] [i' j'] H H'; apply in_square_grid in H; apply in_square_grid in H'; cbn [fst snd].
    rewrite !index_nat by (unfold two32; try lia; tauto); intros E; assert (j = j' /\ i = i') as [-> ->]; [|reflexivity].
    assert (E' : (j * n + i = j' * n + i')%nat) by lia; assert (j = j') by nia; split; [assumption|nia].
  - exists d; split; [|split].
    + rewrite (foldO_ext _ (fun w p => let* x := (let* k := @indexS R r_num (Z.of_nat (fst p)) (Z.of_nat (snd p)) (Z.of_nat n) in rd v k) in
         wr w (index (Z.of_nat (snd p)) (Z.of_nat (fst p)) (Z.of_nat n)) x)).
      2: { intros w p _; unfold zz; cbn [fst snd]; destruct (@indexS R r_num (Z.of_nat (fst p)) (Z.of_nat (snd p)) (Z.of_nat n)); reflexivity. }
      rewrite Ed; reflexivity.
    + unfold len in *; lia.
    + intros i j Hij; unfold entry; split; apply nth_error_nth.
      * specialize (Pd (j, i)); cbn [fst snd] in Pd; rewrite index_nat, Nat2Z.id in Pd by (unfold two32; lia); unfold pk in Pd; cbn [fst snd] in Pd.
        rewrite Nat.min_r, Nat.max_l in Pd by lia; apply Pd, in_square_grid; lia.
      * specialize (Pd (i, j)); cbn [fst snd] in Pd; rewrite index_nat, Nat2Z.id in Pd by (unfold two32; lia); unfold pk in Pd; cbn [fst snd] in Pd.
        rewrite Nat.min_l, Nat.max_r in Pd by lia; apply Pd, in_square_grid; lia.
Qed.

(** reading a matrix that views a living array: [views M n] says the array has n*n numbers, n*n < 2^32 *)
Theorem C91_reads :
  forall (M : matrix R) n, views M n -> let A := full n (m_data M) in
  (forall i j, (i < n)%nat -> (j < n)%nat -> m_at M (Z.of_nat i) (Z.of_nat j) = Ok (A i j)) /\
  @m_trace R r_num M = Ok (upto n (fun i => A i i)) /\
  (exists b, @m_isSymmetric R r_num M = Ok b /\ (b = true <-> mat_eq n A (mat_t A)) /\
     @m_array R r_num M = Ok (if b then map (fun p => A (fst p) (snd p)) (upper n) else m_data M)) /\
  (forall v, length v = n -> @m_multVec R r_num M v = Ok (mat_vec n A v)) /\
  (forall v, len v < two32 -> length v <> n -> @m_multVec R r_num M v = Throw InvalidArgument).
Proof.
  intros M n V A; split; [intros i j Hi Hj; exact (@m_at_ok R r_num M n i j V Hi Hj)|]; split; [|split; [|split]].
  - rewrite (@trace_ok R r_num M n V); cbn [n_add n_of_Z r_num]; rewrite upto_fold; reflexivity.
  - eexists; split; [apply (@isSymmetric_ok R r_num M n V)|]; split.
    + rewrite forallb_forall; cbn [n_eqb r_num]; split.
      * intros H i j Hi Hj; unfold mat_t; destruct (Nat.le_gt_cases i j).
        -- assert (Q : In (i, j) (upper n)) by (apply in_upper; lia); apply H in Q; cbn [fst snd] in Q; revert Q; case Req_bool_spec; [intros E _; exact E|discriminate].
        -- assert (Q : In (j, i) (upper n)) by (apply in_upper; lia); apply H in Q; cbn [fst snd] in Q; revert Q; case Req_bool_spec; [intros E _; symmetry; exact E|discriminate].
      * intros H [i j] Hin; apply in_upper in Hin; cbn [fst snd]; apply Req_bool_true; apply (H i j); lia.
    + rewrite (@array_ok R r_num M n V), (@isSymmetric_ok R r_num M n V); cbn [obind]; destruct (forallb _ (upper n)); reflexivity.
  - intros v Lv; rewrite (@multVec_ok R r_num M n V v Lv); unfold mat_vec; f_equal; apply map_ext; intros i; cbn [n_add n_mul n_of_Z r_num]; apply upto_fold.
  - intros v Bv Lv; unfold m_multVec, v_length, u32; rewrite Z.mod_small by (fold two32; unfold len in *; lia).
    destruct V as (_ & -> & _); destruct (Z.eqb_spec (len v) (Z.of_nat n)) as [E|_]; [exfalso; unfold len in E; lia|reflexivity].
Qed.
Print Assumptions C91_reads.

(** the matrices returned by transpose, multMat and symSquaredMatrix view a local array of the function: no component can be read *)
Theorem C91_returned_refuted :
  (forall (T : Type) (NT : Num T) (M : matrix T) n, views M n -> exists M', m_transpose M = Ok M' /\ forall i j, m_at M' i j = UB) /\
  (forall (T : Type) (NT : Num T) (M N : matrix T) n, views M n -> views N n -> exists M', m_multMat M N = Ok M' /\ forall i j, m_at M' i j = UB) /\
  (forall (v : list R) n, len v = triangle n -> Z.of_nat (n * n) < two32 -> exists M', @symSquaredMatrix R r_num v = Ok M' /\ forall i j, m_at M' i j = UB).
Proof.
  split; [|split].
  - intros T NT M n V; destruct (transpose_ok M n V) as (d & E & _); eexists; split; [exact E|reflexivity].
  - intros T NT M N n V VN; destruct (multMat_ok M n V N VN) as (d & E & _); eexists; split; [exact E|reflexivity].
  - intros v n Lv Hn; destruct (symSquared_ok v n Lv Hn) as (d & E & _); eexists; split; [exact E|reflexivity].
Qed.
Print Assumptions C91_returned_refuted.

(** the numbers stored in those local arrays before they are destroyed *)
Theorem C91_stored_partial :
  (forall (M : matrix R) n, views M n -> exists M', @m_transpose R r_num M = Ok M' /\ m_m M' = Z.of_nat n /\ length (m_data M') = (n * n)%nat /\
     mat_eq n (full n (m_data M')) (mat_t (full n (m_data M)))) /\
  (forall (M N : matrix R) n, views M n -> views N n -> exists M', @m_multMat R r_num M N = Ok M' /\ m_m M' = Z.of_nat n /\ length (m_data M') = (n * n)%nat /\
     mat_eq n (full n (m_data M')) (mat_mul n (full n (m_data M)) (full n (m_data N)))) /\
  (forall (M N : matrix R) n k, views M n -> views N k -> n <> k -> @m_multMat R r_num M N = Throw InvalidArgument) /\
  (forall (v : list R) n, length v = length (upper n) -> Z.of_nat (n * n) < two32 ->
     exists M', @symSquaredMatrix R r_num v = Ok M' /\ m_m M' = Z.of_nat n /\ length (m_data M') = (n * n)%nat /\
     mat_eq n (full n (m_data M')) (mat_t (full n (m_data M'))) /\
     map (fun p => full n (m_data M') (fst p) (snd p)) (upper n) = v).
Proof.
  split; [|split; [|split]].
  - intros M n V; destruct (@transpose_ok R r_num M n V) as (d & E & L & P); eexists; split; [exact E|]; repeat split; auto.
  - intros M N n V VN; destruct (@multMat_ok R r_num M n V N VN) as (d & E & L & P); eexists; split; [exact E|]; split; [reflexivity|]; split; [exact L|].
    intros i j Hi Hj; specialize (P i j Hi Hj); cbn [n_add n_mul n_of_Z r_num] in P; rewrite upto_fold in P; exact P.
  - intros M N n k (_ & Hm & _) (_ & Hk & _) Hne; unfold m_multMat; rewrite Hm, Hk; destruct (Z.eqb_spec (Z.of_nat k) (Z.of_nat n)); [lia|reflexivity].
  - intros v n Lv Hn; assert (Lt : len v = triangle n) by (rewrite <- upper_length; unfold len; rewrite Lv; reflexivity).
    destruct (symSquared_ok v n Lt Hn) as (d & E & L & P); eexists; split; [exact E|]; cbn [m_data m_m]; split; [reflexivity|]; split; [exact L|]; split.
    + intros i j Hi Hj; unfold mat_t; destruct (Nat.le_gt_cases i j).
      * destruct (P i j ltac:(lia)) as [A B]; unfold entry in A, B; unfold full; cbn [n_of_Z r_num] in A, B; congruence.
      * destruct (P j i ltac:(lia)) as [A B]; unfold entry in A, B; unfold full; cbn [n_of_Z r_num] in A, B; congruence.
    + transitivity (map (fun k => nth (Z.to_nat k) v 0%R) (map (fun p => packed n (fst p) (snd p)) (upper n))).
      * rewrite map_map; apply map_ext_in; intros [i j] Hp; apply in_upper in Hp; cbn [fst snd]; apply (P i j Hp).
      * rewrite packed_enumerates, <- Lt; unfold iota; rewrite map_map; unfold len; rewrite Nat2Z.id.
        transitivity (map (fun k => nth k v 0%R) (seq 0 (length v))); [apply map_ext; intros k; rewrite Nat2Z.id; reflexivity|].
        clear; induction v as [|x v IH]; [reflexivity|]; cbn [length seq map nth]; f_equal; rewrite <- seq_shift, map_map; exact IH.
Qed.
Print Assumptions C91_stored_partial.

Example C91_ex : let M := {| m_data := [1; 2; 3; 4]%R; m_alive := true; m_m := 2 |} in
  views M 2 /\ @m_trace R r_num M = Ok 5%R /\ length [1; 2; 3]%R = length (upper 2).
Proof.
  cbv zeta; assert (V : views {| m_data := [1; 2; 3; 4]%R; m_alive := true; m_m := 2 |} 2) by (unfold views; repeat split; reflexivity).
  split; [exact V|]; split; [|reflexivity].
  destruct (C91_reads _ _ V) as (_ & E & _); rewrite E; unfold upto, full, LinSpec.total; cbn; f_equal; ring.
Qed.
