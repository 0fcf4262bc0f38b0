(** * C108 - C110: mean, dot and covariance in binary64. *)
From Verif Require Import Base Num Serie Spec BaseFacts SerieFacts Functional FunctionalFacts Utils Mathf MathFacts MinMaxFacts Stats StatsFacts Algebra AlgebraFacts.
From Verif Require Import F64 F64Facts F64Arith F64Round F64Sum Props_Functional Props_AddSub Props_MultDiv Props_MinMax Props_Algebra.
From Flocq Require Import Core IEEE754.BinarySingleNaN.
From Coq Require Import Reals Lra Psatz.
Open Scope Z_scope.
#[local] Existing Instance F64N.
Opaque f64_of_Z.

(** the largest double *)
Definition dmax : R := IZR ((2 ^ 53 - 1) * 2 ^ 971).
Lemma dmax_fmt : fmt dmax.
Proof. destruct (f64_dblmax_correct false) as [_ E]; cbn [Z.mul] in E; change (1 * ((2 ^ 53 - 1) * 2 ^ 971)) with ((2 ^ 53 - 1) * 2 ^ 971) in E; fold dmax in E; rewrite <- E; apply fmt_B2R. Qed.
Lemma dmax_lt : (dmax < bpow radix2 1024)%R.
Proof. unfold dmax; rewrite <- (IZR_Zpower radix2 1024) by lia; apply IZR_lt; reflexivity. Qed.
Lemma dmax_pos : (0 < dmax)%R. Proof. apply IZR_lt; reflexivity. Qed.
Lemma range_dmax r : (Rabs r <= dmax)%R -> in_range r.
Proof.
  intros H; unfold in_range; eapply Rle_lt_trans; [|exact dmax_lt]; apply abs_round_le_generic; [exact fexp_valid|apply valid_rnd_N|exact dmax_fmt|exact H].
Qed.

(** ** Sums that cannot overflow *)
Lemma sum_finite xs : forall acc : F64, is_finite acc = true -> Forall (fun x => is_finite x = true) xs ->
  ((1 + uu) ^ length xs * (Rabs (B2R acc) + absum xs) <= dmax)%R -> is_finite (fold_left f64_add xs acc) = true.
Proof.
  induction xs as [|x xs IH]; intros acc Fa Fx H; cbn [fold_left]; [exact Fa|].
  apply Forall_cons_iff in Fx as [Fx0 Fx]; cbn [length pow] in H; change (absum (x :: xs)) with (Rabs (B2R x) + absum xs)%R in H.
  pose proof uu_pos as U; pose proof (pow_ge_1 (length xs)) as P; pose proof (absum_nonneg xs) as S; pose proof (Rabs_pos (B2R acc)) as A0; pose proof (Rabs_pos (B2R x)) as A1.
  assert (T : (Rabs (B2R acc + B2R x) <= Rabs (B2R acc) + Rabs (B2R x))%R) by apply Rabs_triang.
  set (w := (Rabs (B2R acc) + Rabs (B2R x))%R) in *; set (p := ((1 + uu) ^ length xs)%R) in *.
  assert (K : ((1 + uu) * p * (w + absum xs) <= dmax)%R) by (unfold w; replace ((1 + uu) * p * (Rabs (B2R acc) + Rabs (B2R x) + absum xs))%R with ((1 + uu) * p * (Rabs (B2R acc) + (Rabs (B2R x) + absum xs)))%R by ring; exact H).
  assert (K1 : (w + absum xs <= (1 + uu) * p * (w + absum xs))%R).
  { rewrite <- (Rmult_1_l (w + absum xs)) at 1; apply Rmult_le_compat_r; [unfold w; lra|nra]. }
  destruct (add_ok acc x Fa Fx0) as [E F]; [apply range_dmax; lra|].
  apply IH; [exact F|exact Fx|].
  destruct (add_err acc x F) as (e & He & Ee); rewrite Ee.
  assert (Q : (Rabs ((B2R acc + B2R x) * (1 + e)) <= (1 + uu) * w)%R).
  { rewrite Rabs_mult, Rmult_comm; assert (Rabs (1 + e) <= 1 + uu)%R by (eapply Rle_trans; [apply Rabs_triang|]; rewrite Rabs_R1; lra).
    apply Rmult_le_compat; try apply Rabs_pos; assumption. }
  eapply Rle_trans; [|exact K]; fold p; replace ((1 + uu) * p * (w + absum xs))%R with (p * ((1 + uu) * w + (1 + uu) * absum xs))%R by ring.
  apply Rmult_le_compat_l; [lra|nra].
Qed.
Lemma count_ok (n : Z) : 1 <= n < 4294967296 -> is_finite #n = true /\ B2R #n = IZR n /\ (1 <= IZR n)%R.
Proof. intros H; destruct (f64_of_Z_correct n ltac:(lia)) as (A & B & _); split; [exact B|]; split; [exact A|apply IZR_le; lia]. Qed.
(** dividing a sum by the number of values *)
Lemma average_ok xs n : 1 <= n < 4294967296 -> length xs = Z.to_nat n ->
  let m := f64_div (fold_left f64_add xs #0) #n in is_finite m = true ->
  Forall (fun x => is_finite x = true) xs /\ (Rabs (B2R m - sumB xs / IZR n) <= growth (S (length xs)) * (absum xs / IZR n) + eta)%R.
Proof.
  intros Hn Hl m F; destruct (count_ok n Hn) as (Fn & En & N1).
  assert (Fs : is_finite (fold_left f64_add xs #0) = true) by exact (div_inv _ _ F Fn).
  destruct (sum0_err xs Fs) as (Fx & B & C); split; [exact Fx|].
  destruct (div_err _ _ F Fn ltac:(rewrite En; lra)) as (e & h & He & Hh & E); fold m in E; rewrite E, En.
  set (sm := B2R (fold_left f64_add xs #0)) in *; set (k := IZR n) in *.
  assert (Ik : (0 < / k)%R) by (apply Rinv_0_lt_compat; lra).
  replace (sm / k * (1 + e) + h - sumB xs / k)%R with ((sm - sumB xs) * / k + (sm * / k * e + h))%R by (field; lra).
  assert (B1 : (Rabs ((sm - sumB xs) * / k) <= growth (length xs) * absum xs * / k)%R) by (rewrite Rabs_mult, (Rabs_pos_eq (/ k)) by lra; apply Rmult_le_compat_r; lra).
  assert (B2 : (Rabs (sm * / k * e) <= (1 + uu) ^ length xs * absum xs * / k * uu)%R).
  { rewrite !Rabs_mult, (Rabs_pos_eq (/ k)) by lra; apply Rmult_le_compat; [apply Rmult_le_pos; [apply Rabs_pos|lra]|apply Rabs_pos|apply Rmult_le_compat_r; lra|exact He]. }
  eapply Rle_trans; [apply Rabs_triang|]; eapply Rle_trans; [apply Rplus_le_compat_l, Rabs_triang|].
  replace (growth (S (length xs)) * (absum xs / k))%R with (growth (length xs) * absum xs * / k + (1 + uu) ^ length xs * absum xs * / k * uu)%R; [lra|].
  rewrite growth_S; unfold growth; field; lra.
Qed.
Lemma average_finite xs n : 1 <= n < 4294967296 -> length xs = Z.to_nat n -> Forall (fun x => is_finite x = true) xs ->
  ((1 + uu) ^ length xs * absum xs <= dmax)%R -> is_finite (f64_div (fold_left f64_add xs #0) #n) = true.
Proof.
  intros Hn Hl Fx H; destruct (count_ok n Hn) as (Fn & En & N1); destruct zero_B2R as [Z0 F0].
  assert (Fs : is_finite (fold_left f64_add xs #0) = true) by (apply sum_finite; [exact F0|exact Fx|rewrite Z0, Rabs_R0, Rplus_0_l; exact H]).
  destruct (sum0_err xs Fs) as (_ & _ & C); apply div_ok; [exact Fs|rewrite En; lra|]; apply range_dmax; rewrite En.
  unfold Rdiv; rewrite Rabs_mult; apply Rle_trans with (Rabs (B2R (fold_left f64_add xs #0)) * 1)%R; [|rewrite Rmult_1_r; exact (Rle_trans _ _ _ C H)].
  apply Rmult_le_compat_l; [apply Rabs_pos|]; rewrite Rabs_pos_eq by (left; apply Rinv_0_lt_compat; lra).
  rewrite <- Rinv_1; apply Rinv_le; lra.
Qed.

(** ** C108: mean *)
Lemma repr_len (s : Serie F64) k rows : repr s k rows -> rows <> [] -> 1 <= len rows < 4294967296.
Proof. intros Hs Hne; split; [destruct rows; [congruence|rewrite len_cons; pose proof (len_nonneg rows); lia]|unfold repr in Hs; tauto]. Qed.
(** a mean that is a number differs from the exact mean by at most n + 1 roundings *)
Theorem C108_error :
  forall (L : Libm) (s : Serie F64) xs m, repr s 1 (col xs) -> xs <> [] -> @mean F64 (f64_num L) s = Ok (Number m) -> is_finite m = true ->
  (Rabs (B2R m - sumB xs / IZR (len xs)) <= growth (S (length xs)) * (absum xs / IZR (len xs)) + eta)%R.
Proof.
  intros L s xs m Hs Hne E F; pose proof (repr_len s 1 (col xs) Hs) as Hn; rewrite len_col in Hn; specialize (Hn ltac:(destruct xs; [congruence|discriminate])).
  rewrite (@mean_scalar F64 (f64_num L) s xs Hs) in E; injection E as E; cbn [n_div n_add n_of_Z f64_num] in E; rewrite <- E in *.
  destruct (average_ok xs (len xs) Hn ltac:(unfold len; lia) F) as [_ B]; exact B.
Qed.
(** it is a number when the sum of the absolute values, with n roundings, is below the largest double *)
Theorem C108_finite :
  forall (L : Libm) (s : Serie F64) xs, repr s 1 (col xs) -> xs <> [] -> Forall (fun x => is_finite x = true) xs ->
  ((1 + uu) ^ length xs * absum xs <= dmax)%R -> exists m, @mean F64 (f64_num L) s = Ok (Number m) /\ is_finite m = true.
Proof.
  intros L s xs Hs Hne Fx H; pose proof (repr_len s 1 (col xs) Hs) as Hn; rewrite len_col in Hn; specialize (Hn ltac:(destruct xs; [congruence|discriminate])).
  rewrite (@mean_scalar F64 (f64_num L) s xs Hs); eexists; split; [reflexivity|]; cbn [n_div n_add n_of_Z f64_num].
  apply average_finite; [exact Hn|unfold len; rewrite Nat2Z.id; reflexivity|exact Fx|exact H].
Qed.
(** greater values never give a smaller mean *)
Theorem C108_monotone :
  forall (L : Libm) (s t : Serie F64) xs ys m p, repr s 1 (col xs) -> repr t 1 (col ys) -> xs <> [] -> Forall2 (fun x y => B2R x <= B2R y)%R xs ys ->
  @mean F64 (f64_num L) s = Ok (Number m) -> @mean F64 (f64_num L) t = Ok (Number p) -> is_finite m = true -> is_finite p = true -> (B2R m <= B2R p)%R.
Proof.
  intros L s t xs ys m p Hs Ht Hne H E1 E2 F1 F2; pose proof (repr_len s 1 (col xs) Hs) as Hn; rewrite len_col in Hn; specialize (Hn ltac:(destruct xs; [congruence|discriminate])).
  assert (El : len ys = len xs) by (unfold len; f_equal; symmetry; clear - H; induction H; cbn [length]; congruence).
  rewrite (@mean_scalar F64 (f64_num L) s xs Hs) in E1; rewrite (@mean_scalar F64 (f64_num L) t ys Ht), El in E2; injection E1 as E1; injection E2 as E2; cbn [n_div n_add n_of_Z f64_num] in E1, E2.
  rewrite <- E1, <- E2 in *; destruct (count_ok _ Hn) as (Fn & En & N1).
  pose proof (div_inv _ _ F1 Fn) as G1; pose proof (div_inv _ _ F2 Fn) as G2; assert (Nz : B2R #(len xs) <> 0%R) by (rewrite En; lra).
  destruct (div_ok _ _ G1 Nz (div_finite _ _ G1 Nz F1)) as [-> _]; destruct (div_ok _ _ G2 Nz (div_finite _ _ G2 Nz F2)) as [-> _].
  apply rnd_le; rewrite En; unfold Rdiv; apply Rmult_le_compat_r; [left; apply Rinv_0_lt_compat; lra|]; apply sum_mono; try assumption; lra.
Qed.
Print Assumptions C108_error.
Print Assumptions C108_finite.
Print Assumptions C108_monotone.

(** vectors: the same, component by component *)
Definition column64 (c : nat) (rows : list (list F64)) : list F64 := map (fun r => nth c r #0) rows.
Theorem C108_vector :
  forall (L : Libm) (s : Serie F64) k rows ms c m, repr s k rows -> 2 <= k -> rows <> [] -> @mean F64 (f64_num L) s = Ok (Vector ms) ->
  nth_error ms c = Some m -> is_finite m = true ->
  (Rabs (B2R m - sumB (column64 c rows) / IZR (len rows)) <= growth (S (length rows)) * (absum (column64 c rows) / IZR (len rows)) + eta)%R.
Proof.
  intros L s k rows ms c m Hs Hk Hne E Hc F; pose proof (repr_len s k rows Hs Hne) as Hn; pose proof (repr_rows _ _ _ Hs) as Hr.
  rewrite (@mean_vector F64 (f64_num L) s k rows Hs Hk) in E; injection E as E; cbn [n_div n_add n_of_Z f64_num] in E; rewrite <- E in Hc.
  assert (Lk : len (replicate k #0) = k) by (unfold replicate, len; rewrite repeat_length; lia).
  pose proof (nth_error_lt _ _ _ Hc) as Lc; rewrite map_length in Lc.
  destruct (fold_map2_column f64_add #0 0 k rows (replicate k #0) Hr Lk ltac:(lia)) as [_ Lf].
  destruct (fold_map2_column f64_add #0 c k rows (replicate k #0) Hr Lk ltac:(unfold len in Lf; lia)) as [Q _].
  rewrite nth_error_map in Hc; rewrite (nth_error_nth' _ #0) in Hc by exact Lc; cbn [option_map] in Hc; rewrite Q in Hc; injection Hc as Hc.
  assert (E0 : nth c (replicate k #0) #0 = #0) by (unfold replicate; apply nth_repeat); rewrite E0 in Hc; fold (column64 c rows) in Hc.
  rewrite <- Hc in *; destruct (average_ok (column64 c rows) (len rows) Hn) as [_ B]; [unfold column64; rewrite map_length; unfold len; lia|exact F|].
  assert (El : length (column64 c rows) = length rows) by apply map_length; rewrite El in B; exact B.
Qed.
Print Assumptions C108_vector.

(** the claim proved for real numbers, that the mean lies between the smallest and the largest value, is false *)
Theorem C108_between_refuted :
  exists (s : Serie F64) xs m, repr s 1 (col xs) /\ mean s = Ok (Number m) /\ is_finite m = true /\ exists hi, (forall x, In x xs -> x = hi) /\ (B2R hi < B2R m)%R.
Proof.
  set (t := f64_div #1 #10); exists (mk 1 (col [t; t; t]) 3), [t; t; t]; eexists; split; [repr_ex|]; split; [reflexivity|]; split; [vm_compute; reflexivity|].
  exists t; split; [intros x [<-|[<-|[<-|[]]]]; reflexivity|]; apply lt_ok; vm_compute; reflexivity.
Qed.
(** two values at the largest double: the mean is infinite *)
Theorem C108_overflow_refuted :
  exists (s : Serie F64) xs m, repr s 1 (col xs) /\ Forall (fun x => is_finite x = true) xs /\ mean s = Ok (Number m) /\ is_finite m = false.
Proof.
  set (t := n_dblmax : F64); exists (mk 1 (col [t; t]) 3), [t; t]; eexists; split; [repr_ex|]; split; [repeat (apply Forall_cons; [vm_compute; reflexivity|]); apply Forall_nil|].
  split; [reflexivity|vm_compute; reflexivity].
Qed.
Print Assumptions C108_between_refuted.
Print Assumptions C108_overflow_refuted.

(** ** C109: dot *)
Definition dotB (u v : list F64) : R := fold_right Rplus 0%R (map2 (fun x y => B2R x * B2R y)%R u v).
Definition dotA (u v : list F64) : R := fold_right Rplus 0%R (map2 (fun x y => Rabs (B2R x * B2R y))%R u v).
Theorem C109_error :
  forall (L : Libm) (a b : Serie F64) k ra rb ds i u v d,
  repr a k ra -> repr b k rb -> ra <> [] -> length ra = length rb -> @dot F64 (f64_num L) a b = Ok (mk 1 (col ds) 3) ->
  nth_error ra i = Some u -> nth_error rb i = Some v -> nth_error ds i = Some d -> is_finite d = true ->
  (Rabs (B2R d - dotB u v) <= growth (S (Z.to_nat k)) * dotA u v + (1 + uu) ^ Z.to_nat k * (IZR k * eta))%R.
Proof.
  intros L a b k ra rb ds i u v d Ha Hb Hne Hl E Hu Hv Hd F.
  rewrite (dot_ok F64 (f64_num L) a b k ra rb Ha Hb Hne ltac:(lia)) in E.
  assert (Ed : ds = map2 (@sum_prod F64 (f64_num L)) ra rb) by (apply (f_equal (fun o => match o with Ok s => s_ s | _ => [] end)) in E; cbn [mk s_] in E; rewrite !concat_col in E; congruence).
  rewrite Ed, (nth_error_map2 _ _ _ _ _ _ Hu Hv) in Hd; injection Hd as Hd; unfold sum_prod in Hd; cbn [n_add n_mul n_of_Z f64_num] in Hd; rewrite <- Hd in *.
  pose proof (repr_rows _ _ _ Ha) as Ra; pose proof (repr_rows _ _ _ Hb) as Rb; unfold rows_of_size in Ra, Rb; rewrite Forall_forall in Ra, Rb.
  pose proof (Ra u (nth_error_In _ _ Hu)) as Lu; pose proof (Rb v (nth_error_In _ _ Hv)) as Lv.
  destruct (sum_prod_err u v) as (_ & _ & B); [unfold len in *; lia|exact F|].
  assert (Ek : Z.to_nat k = length u) by (unfold len in Lu; lia); rewrite Ek; unfold dotB, dotA.
  replace (IZR k) with (INR (length u)) by (rewrite INR_IZR_INZ; f_equal; unfold len in Lu; lia); exact B.
Qed.
Print Assumptions C109_error.
(** equality with the exact dot product is false: (2^27 + 1, -2^27) . (2^27 - 1, 2^27) is -1, and the result is 0 *)
Theorem C109_cancellation_refuted :
  exists (a b : Serie F64) u v d, repr a 2 [u] /\ repr b 2 [v] /\ dot a b = Ok (mk 1 (col [d]) 3) /\ B2R d = 0%R /\ dotB u v <> 0%R.
Proof.
  set (p := f64_of_Z (2 ^ 27 + 1)); set (q := f64_of_Z (2 ^ 27 - 1)); set (r := f64_of_Z (- 2 ^ 27)); set (w := f64_of_Z (2 ^ 27)).
  exists (mk 2 [[p; r]] 3), (mk 2 [[q; w]] 3), [p; r], [q; w]; eexists; split; [repr_ex|]; split; [repr_ex|]; split; [reflexivity|].
  split.
  - change 0%R with (SF2R radix2 (SpecFloat.S754_zero false)).
    match goal with |- B2R ?x = _ => assert (E : B2SF x = SpecFloat.S754_zero false) by (vm_compute; reflexivity); rewrite <- E; destruct x; reflexivity end.
  - unfold dotB; cbn [map2 fold_right]; unfold p, q, r, w.
    destruct (f64_of_Z_correct (2 ^ 27 + 1) ltac:(lia)) as (-> & _); destruct (f64_of_Z_correct (2 ^ 27 - 1) ltac:(lia)) as (-> & _).
    destruct (f64_of_Z_correct (- 2 ^ 27) ltac:(lia)) as (-> & _); destruct (f64_of_Z_correct (2 ^ 27) ltac:(lia)) as (-> & _).
    rewrite Rplus_0_r, <- !mult_IZR, <- plus_IZR; apply IZR_neq; discriminate.
Qed.
Print Assumptions C109_cancellation_refuted.

(** ** C110: covariance *)
Section Steps.
  Context {T : Type} {NT : Num T}.
  (** covariance.cxx:34-54 as one expression *)
  Definition deviations (xs : list T) : list T := map (fun x => n_sub x (n_div (fold_left n_add xs (n_of_Z 0)) (n_of_Z (len xs)))) xs.
  Definition cov_sum (xs ys : list T) : T :=
    fold_left (fun acc v => n_add acc (n_div v (n_of_Z (len xs)))) (map2 n_mul (deviations xs) (deviations ys)) (n_of_Z 0).
  Lemma covariance_steps (x y : Serie T) xs ys : repr x 1 (col xs) -> repr y 1 (col ys) -> len xs = len ys -> covariance x y = Ok (cov_sum xs ys).
  Proof.
    intros Hx Hy Hl; unfold covariance.
    rewrite (repr_count _ _ _ Hx), (repr_count _ _ _ Hy), (repr_itemSize _ _ _ Hx), (repr_itemSize _ _ _ Hy), !len_col, Hl, Z.eqb_refl.
    cbn [negb Z.eqb Pos.eqb]; rewrite (mean_scalar x xs Hx), (mean_scalar y ys Hy); cbn [obind number].
    destruct (C57_sub_overloads T NT) as (_ & Sv & _); rewrite (Sv x _ xs Hx), (Sv y _ ys Hy); cbn [obind].
    assert (Lx : len (col xs) < 4294967296) by (unfold repr in Hx; tauto); rewrite len_col in Lx.
    fold (deviations xs) (deviations ys).
    assert (Ex : len (deviations xs) = len xs) by apply len_map; assert (Ey : len (deviations ys) = len ys) by apply len_map.
    destruct (C59_by_serie T NT (mk 1 (col (deviations xs)) 3) (mk 1 (col (deviations ys)) 3)) as [Ms _].
    rewrite (Ms (deviations xs) (deviations ys)).
    2-3: apply repr_col_mk; lia.
    2: cbn [mk s_]; apply concat_col.
    2: lia.
    cbn [obind].
    assert (Lm : len (map2 n_mul (deviations xs) (deviations ys)) = len xs) by (rewrite len_map2; lia).
    etransitivity; [apply (Props_Fold.C23_reduce_fold_left T NT (mk 1 (col (map2 n_mul (deviations xs) (deviations ys))) 3) (map2 n_mul (deviations xs) (deviations ys)) (fun acc value => n_add acc (n_div value (n_of_Z (size x)))) (n_of_Z 0)); apply repr_col_mk; lia|].
    f_equal; unfold cov_sum; rewrite (repr_size _ _ _ Hx), len_col, Z.mul_1_l; reflexivity.
  Qed.
End Steps.

(** bit for bit, whatever the values *)
Theorem C110_symmetric :
  forall (L : Libm) (x y : Serie F64) xs ys, repr x 1 (col xs) -> repr y 1 (col ys) ->
  @covariance F64 (f64_num L) x y = @covariance F64 (f64_num L) y x.
Proof.
  intros L x y xs ys Hx Hy; destruct (Z.eq_dec (len xs) (len ys)) as [E|N].
  - rewrite (@covariance_steps F64 (f64_num L) x y xs ys Hx Hy E), (@covariance_steps F64 (f64_num L) y x ys xs Hy Hx (eq_sym E)); f_equal; unfold cov_sum; rewrite E; f_equal.
    generalize (@deviations F64 (f64_num L) xs) as p, (@deviations F64 (f64_num L) ys) as q; induction p as [|a p IH]; intros [|b q]; cbn [map2]; try reflexivity.
    f_equal; [apply f64_mul_comm|apply IH].
  - unfold covariance; rewrite (repr_count _ _ _ Hx), (repr_count _ _ _ Hy), !len_col.
    destruct (Z.eqb_spec (len xs) (len ys)) as [E|_]; [contradiction|]; destruct (Z.eqb_spec (len ys) (len xs)) as [E|_]; [congruence|reflexivity].
Qed.
Print Assumptions C110_symmetric.

(** neither NaN nor negative; +0 and +inf included *)
Definition nonneg (c : F64) : Prop := is_nan c = false /\ Bsign c = false.
Lemma nonneg_ge0 c : nonneg c -> Bleb #0 c = true.
Proof.
  intros [Hn Hs]; assert (E : (#0 : F64) = B754_zero false) by (apply B2SF_inj; vm_compute; reflexivity); rewrite E.
  destruct c as [b|b| |b m e He]; cbn [is_nan Bsign] in *; try discriminate; subst; reflexivity.
Qed.
Lemma overflow_inf (z : F64) b : B2SF z = binary_overflow 53 1024 mode_NE b -> z = B754_infinity b.
Proof. intros H; apply B2SF_inj; rewrite H; reflexivity. Qed.
Lemma square_nonneg d : is_nan d = false -> nonneg (f64_mul d d).
Proof.
  intros Hn; destruct d as [b|b| |b m e He]; try discriminate; [destruct b; split; reflexivity..|].
  pose proof (Bmult_correct 53 1024 _ _ mode_NE (B754_finite b m e He) (B754_finite b m e He)) as C; fold (f64_mul (B754_finite b m e He) (B754_finite b m e He)) in C.
  set (d := B754_finite b m e He) in *; destruct (Rlt_bool _ _) in C.
  - destruct C as (_ & F & S); cbn [d is_finite andb] in F; assert (N : is_nan (f64_mul d d) = false) by (apply nan_finite; exact F); split; [exact N|].
    rewrite (S N); apply Bool.xorb_nilpotent.
  - apply overflow_inf in C; rewrite C; split; [reflexivity|]; cbn [Bsign]; apply Bool.xorb_nilpotent.
Qed.
Lemma add_nonneg a b : nonneg a -> nonneg b -> nonneg (f64_add a b).
Proof.
  intros [Na Sa] [Nb Sb].
  destruct (is_finite a) eqn:Fa, (is_finite b) eqn:Fb.
  - pose proof (Bplus_correct 53 1024 _ _ mode_NE a b Fa Fb) as C; fold (f64_add a b) in C; destruct (Rlt_bool _ _) in C.
    + destruct C as (_ & F & S); split; [apply nan_finite; exact F|]; rewrite S, Sa, Sb.
      destruct (Rcompare_spec (B2R a + B2R b) 0) as [H|H|H]; try reflexivity.
      exfalso; assert (P : forall c : F64, Bsign c = false -> (0 <= B2R c)%R); [|pose proof (P a Sa); pose proof (P b Sb); lra].
      intros [s|s| |s m e He] Hs; cbn [Bsign B2R] in *; try lra; subst s; apply F2R_ge_0; cbn; lia.
    + destruct C as [C _]; apply overflow_inf in C; rewrite C, Sa; split; reflexivity.
  - destruct b as [s|s| |s m e He]; try discriminate; cbn [Bsign] in Sb; subst s; destruct a as [s|s| |s m e He]; try discriminate; cbn [Bsign] in Sa; subst; split; reflexivity.
  - destruct a as [s|s| |s m e He]; try discriminate; cbn [Bsign] in Sa; subst s; destruct b as [s|s| |s m e He]; try discriminate; cbn [Bsign] in Sb; subst; split; reflexivity.
  - destruct a as [s|s| |s m e He]; try discriminate; cbn [Bsign] in Sa; subst s; destruct b as [s|s| |s m e He]; try discriminate; cbn [Bsign] in Sb; subst; split; reflexivity.
Qed.
Lemma div_not_nan a n : 1 <= n < 4294967296 -> is_nan a = false -> is_nan (f64_div a #n) = false /\ Bsign (f64_div a #n) = Bsign a.
Proof.
  intros Hn Na; destruct (count_ok n Hn) as (Fn & En & N1); destruct (f64_of_Z_correct n ltac:(lia)) as (_ & _ & Sn).
  assert (Sg : Bsign #n = false) by (rewrite Sn; apply Z.ltb_ge; lia); clear Sn.
  destruct (is_finite a) eqn:Fa.
  - pose proof (Bdiv_correct 53 1024 _ _ mode_NE a #n ltac:(rewrite En; lra)) as C; fold (f64_div a #n) in C; destruct (Rlt_bool _ _) in C.
    + destruct C as (_ & F & S); rewrite Fa in F; assert (N : is_nan (f64_div a #n) = false) by (apply nan_finite; exact F); split; [exact N|].
      rewrite (S N), Sg; destruct (Bsign a); reflexivity.
    + apply overflow_inf in C; rewrite C, Sg; split; [reflexivity|]; cbn [Bsign]; destruct (Bsign a); reflexivity.
  - destruct a as [s|s| |s m e He]; try discriminate; destruct #n as [s'|s'| |s' m' e' He'] eqn:E; cbn [Bsign is_finite B2R] in *; try discriminate; try lra; subst s'.
    split; destruct s; reflexivity.
Qed.
Lemma sum_not_nan xs : forall acc : F64, is_nan acc = false -> Forall (fun x => is_finite x = true) xs -> is_nan (fold_left f64_add xs acc) = false.
Proof.
  induction xs as [|x xs IH]; intros acc Na Fx; cbn [fold_left]; [exact Na|]; apply Forall_cons_iff in Fx as [Fx0 Fx]; apply IH; [|exact Fx].
  destruct (is_finite acc) eqn:Fa; [|destruct acc as [s|s| |s m e He]; try discriminate; destruct x; try discriminate; reflexivity].
  pose proof (Bplus_correct 53 1024 _ _ mode_NE acc x Fa Fx0) as C; fold (f64_add acc x) in C; destruct (Rlt_bool _ _) in C.
  - destruct C as (_ & F & _); apply nan_finite; exact F.
  - destruct C as [C _]; apply overflow_inf in C; rewrite C; reflexivity.
Qed.
Lemma sub_not_nan x m : is_finite x = true -> is_nan m = false -> is_nan (f64_sub x m) = false.
Proof.
  intros Fx Nm; destruct (is_finite m) eqn:Fm; [|destruct m as [s|s| |s mm e He]; try discriminate; destruct x; try discriminate; reflexivity].
  pose proof (Bminus_correct 53 1024 _ _ mode_NE x m Fx Fm) as C; fold (f64_sub x m) in C; destruct (Rlt_bool _ _) in C.
  - destruct C as (_ & F & _); apply nan_finite; exact F.
  - destruct C as [C _]; apply overflow_inf in C; rewrite C; reflexivity.
Qed.
(** the variance of finite values, overflow or not *)
Theorem C110_variance :
  forall (L : Libm) (x : Serie F64) xs, repr x 1 (col xs) -> xs <> [] -> Forall (fun v => is_finite v = true) xs ->
  exists c, @covariance F64 (f64_num L) x x = Ok c /\ is_nan c = false /\ Bleb #0 c = true.
Proof.
  intros L x xs Hx Hne Fx; pose proof (repr_len x 1 (col xs) Hx) as Hn; rewrite len_col in Hn; specialize (Hn ltac:(destruct xs; [congruence|discriminate])).
  eexists; split; [apply (@covariance_steps F64 (f64_num L) x x xs xs Hx Hx eq_refl)|].
  cut (nonneg (@cov_sum F64 (f64_num L) xs xs)); [intros [N S]; split; [exact N|apply nonneg_ge0; split; assumption]|].
  unfold cov_sum; cbn [n_add n_div n_mul n_of_Z f64_num].
  assert (D : Forall (fun d => is_nan d = false) (@deviations F64 (f64_num L) xs)).
  { unfold deviations; cbn [n_sub n_div n_add n_of_Z f64_num]; apply Forall_forall; intros d Hd; apply in_map_iff in Hd as (v & <- & Hv); rewrite Forall_forall in Fx.
    apply sub_not_nan; [apply Fx; exact Hv|]; apply div_not_nan; [exact Hn|]; apply sum_not_nan; [apply nan_finite; apply zero_B2R|apply Forall_forall; exact Fx]. }
  assert (Z0 : nonneg (#0 : F64)) by (split; vm_compute; reflexivity).
  revert D Z0; generalize (#0 : F64) as acc; generalize (@deviations F64 (f64_num L) xs) as ds; induction ds as [|d ds IH]; intros acc D A; cbn [map2 fold_left]; [exact A|].
  apply Forall_cons_iff in D as [D0 D]; apply IH; [exact D|]; apply add_nonneg; [exact A|].
  destruct (square_nonneg d D0) as [N S]; destruct (div_not_nan _ (len xs) Hn N) as [N' S']; split; [exact N'|]; rewrite S'; exact S.
Qed.
Print Assumptions C110_variance.

(** what holds for real numbers, variance 0 of equal values, is false *)
Theorem C110_constant_refuted :
  exists (x : Serie F64) v c, repr x 1 (col [v; v; v]) /\ is_finite v = true /\ covariance x x = Ok c /\ Bltb #0 c = true.
Proof.
  set (v := f64_div #1 #10); exists (mk 1 (col [v; v; v]) 3), v; eexists; split; [repr_ex|]; split; [vm_compute; reflexivity|]; split; [reflexivity|vm_compute; reflexivity].
Qed.
(** the covariance of two Series of finite values can be NaN: two products of opposite signs overflow *)
Theorem C110_nan_refuted :
  exists (x y : Serie F64) xs ys c, repr x 1 (col xs) /\ repr y 1 (col ys) /\ Forall (fun v => is_finite v = true) (xs ++ ys) /\ covariance x y = Ok c /\ is_nan c = true.
Proof.
  set (b := f64_of_Z (2 ^ 600)); set (nb := f64_of_Z (- 2 ^ 600)).
  exists (mk 1 (col [b; nb; b; nb]) 3), (mk 1 (col [b; nb; nb; b]) 3), [b; nb; b; nb], [b; nb; nb; b]; eexists.
  split; [repr_ex|]; split; [repr_ex|]; split; [cbn [app]; repeat (apply Forall_cons; [vm_compute; reflexivity|]); apply Forall_nil|].
  split; [reflexivity|vm_compute; reflexivity].
Qed.
Print Assumptions C110_constant_refuted.
Print Assumptions C110_nan_refuted.

(** ** Examples *)
Example C108_example : match mean (mk 1 (col [#1; #2; #3; #6]) 3) with Ok (Number m) => Beqb m #3 | _ => false end = true
  /\ match mean (mk 2 [[#1; #10]; [#3; #20]] 3) with Ok (Vector [a; b]) => Beqb a #2 && Beqb b #15 | _ => false end = true.
Proof. split; vm_compute; reflexivity. Qed.
Example C109_example : match dot (mk 3 [[#1; #2; #3]; [#0; #1; #0]] 3) (mk 3 [[#4; #5; #6]; [#7; #8; #9]] 3) with
  Ok s => match s_ s with [a; b] => Beqb a #32 && Beqb b #8 | _ => false end | _ => false end = true.
Proof. vm_compute; reflexivity. Qed.
Example C110_example : match covariance (mk 1 (col [#1; #2; #3; #6]) 3) (mk 1 (col [#2; #0; #4; #2]) 3) with Ok c => Beqb c (f64_div #1 #2) | _ => false end = true
  /\ match covariance (mk 1 (col [#1; #3]) 3) (mk 1 (col [#1; #3]) 3) with Ok c => Beqb c #1 | _ => false end = true.
Proof. split; vm_compute; reflexivity. Qed.
