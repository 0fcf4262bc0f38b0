(** * C68, C69: mean and covariance. *)
From Verif Require Import Base Num Serie Spec BaseFacts SerieFacts Functional FunctionalFacts Utils Mathf MathFacts MinMaxFacts Stats StatsFacts.
From Verif Require Import F64 F64Facts RNum Props_Functional Props_AddSub Props_MultDiv.
From Coq Require Import Reals Lra.
Open Scope Z_scope.
Opaque f64_of_Z.

(** sum of a list of reals; component [c] of every item *)
Definition sumR (l : list R) : R := fold_right Rplus 0%R l.
Definition column (c : nat) (rows : list (list R)) : list R := map (fun r => nth c r 0%R) rows.

Lemma fold_left_sum l : forall a, fold_left Rplus l a = (a + sumR l)%R.
Proof. induction l as [|x l IH]; intros a; simpl; [lra|]; rewrite IH; unfold sumR; simpl; lra. Qed.
Lemma sumR_bounds l lo hi : (forall x, In x l -> (lo <= x <= hi)%R) -> (lo * IZR (len l) <= sumR l <= hi * IZR (len l))%R.
Proof.
  induction l as [|x l IH]; intros H; [simpl; change (len (@nil R)) with 0; lra|].
  rewrite len_cons, plus_IZR; pose proof (H x (or_introl eq_refl)); assert (Q := IH (fun y h => H y (or_intror h))); simpl; lra.
Qed.
Lemma sumR_map_add l v : sumR (map (fun x => x + v)%R l) = (sumR l + v * IZR (len l))%R.
Proof. induction l as [|x l IH]; simpl; [change (len (@nil R)) with 0; lra|]; rewrite IH, len_cons, plus_IZR; lra. Qed.
Lemma sumR_map_mul l v : sumR (map (fun x => x * v)%R l) = (sumR l * v)%R.
Proof. induction l as [|x l IH]; simpl; [lra|rewrite IH; lra]. Qed.
Lemma len_pos_R {A} (l : list A) : l <> [] -> (0 < IZR (len l))%R.
Proof. intros H; destruct l; [congruence|]; apply IZR_lt; rewrite len_cons; pose proof (len_nonneg l); lia. Qed.
Lemma mean_bounds (m : R) l lo hi : l <> [] -> (m * IZR (len l) = sumR l)%R -> (forall x, In x l -> (lo <= x <= hi)%R) -> (lo <= m <= hi)%R.
Proof.
  intros Hne E H; pose proof (len_pos_R l Hne) as P; pose proof (sumR_bounds l lo hi H) as [A B]; rewrite <- E in A, B.
  split; eapply Rmult_le_reg_r; eauto; lra.
Qed.

(** ** C68 *)
Theorem C68_scalar :
  forall (s : Serie R) xs,
  repr s 1 (col xs) -> xs <> [] ->
  exists m, @mean R r_num s = Ok (Number m) /\
    (m * IZR (len xs) = sumR xs)%R /\
    (forall lo hi, (forall x, In x xs -> (lo <= x <= hi)%R) -> (lo <= m <= hi)%R) /\
    (forall v, exists t, @add_value R r_num s v = Ok t /\ @mean R r_num t = Ok (Number (m + v)%R)) /\
    (forall f, exists t, @scale R r_num s f = Ok t /\ @mean R r_num t = Ok (Number (m * f)%R)).
Proof.
  intros s xs Hs Hne; pose proof (len_pos_R xs Hne) as P.
  exists (sumR xs / IZR (len xs))%R.
  assert (M : forall t ys, repr t 1 (col ys) -> @mean R r_num t = Ok (Number (sumR ys / IZR (len ys))%R)).
  { intros t ys Ht; rewrite (@mean_scalar R r_num t ys Ht); cbn [n_div n_add n_of_Z r_num]; rewrite fold_left_sum; do 3 f_equal; lra. }
  assert (Lx : len (col xs) < 4294967296) by (unfold repr in Hs; tauto); rewrite len_col in Lx.
  split; [apply M, Hs|]; split; [field; lra|]; split.
  - intros lo hi H; apply (mean_bounds _ xs lo hi Hne); [field; lra|exact H].
  - split.
    + intros v; destruct (C56_add_value R r_num s v) as [A _]; specialize (A xs Hs).
      eexists; split; [exact A|].
      rewrite (M _ (map (fun x => x + v)%R xs)) by (apply repr_col_mk; rewrite len_map; exact Lx).
      rewrite sumR_map_add, len_map; do 2 f_equal; field; lra.
    + intros f; destruct (C59_by_number R r_num s 1 (col xs) f Hs) as (E & A & _).
      rewrite <- E; eexists; split; [apply A; [destruct xs; [congruence|discriminate]|lia]|].
      rewrite map_col, (M _ (map (fun x => x * f)%R xs)) by (apply repr_col_mk; rewrite len_map; exact Lx).
      rewrite sumR_map_mul, len_map; do 2 f_equal; field; lra.
Qed.
Print Assumptions C68_scalar.

Lemma nth_map_in {A B} (f : A -> B) (l : list A) c d d' : (c < length l)%nat -> nth c (map f l) d' = f (nth c l d).
Proof. intros H; rewrite (nth_indep _ d' (f d)) by (rewrite map_length; exact H); apply map_nth. Qed.

Theorem C68_vector :
  forall (s : Serie R) k rows,
  repr s k rows -> rows <> [] -> 2 <= k ->
  exists ms, @mean R r_num s = Ok (Vector ms) /\ len ms = k /\
    (forall c m, nth_error ms c = Some m ->
       (m * IZR (len rows) = sumR (column c rows))%R /\
       (forall lo hi, (forall x, In x (column c rows) -> (lo <= x <= hi)%R) -> (lo <= m <= hi)%R)) /\
    (forall f, exists t, @scale R r_num s f = Ok t /\ @mean R r_num t = Ok (Vector (map (fun m => m * f)%R ms))).
Proof.
  intros s k rows Hs Hne Hk; pose proof (len_pos_R rows Hne) as P; pose proof (repr_rows _ _ _ Hs) as Hr.
  rewrite (@mean_vector R r_num s k rows Hs Hk).
  set (S := fun rs => fold_left (map2 Rplus) rs (replicate k 0%R)).
  assert (L0 : len (replicate k 0%R) = k) by (apply len_replicate; lia).
  assert (SC : forall rs c, rows_of_size k rs -> Z.of_nat c < k -> nth c (S rs) 0%R = sumR (column c rs) /\ len (S rs) = k).
  { intros rs c Hrs Hc; destruct (@fold_map2_column R Rplus 0%R c k rs (replicate k 0%R) Hrs L0 Hc) as [E1 E2].
    split; [|exact E2]; unfold S; rewrite E1, fold_left_sum; unfold replicate; rewrite nth_repeat; unfold column; lra. }
  exists (map (fun v => (v / IZR (len rows))%R) (S rows)).
  assert (LS : len (S rows) = k) by (apply (SC rows O Hr); lia).
  split; [reflexivity|]; split; [rewrite len_map; exact LS|]; split.
  - intros c m Hm; rewrite nth_error_map in Hm; destruct (nth_error (S rows) c) as [v|] eqn:Ev; [|discriminate]; injection Hm as <-.
    assert (Hc : Z.of_nat c < k) by (pose proof (nth_error_lt _ _ _ Ev); unfold len in LS; lia).
    destruct (SC rows c Hr Hc) as [E _]; rewrite (nth_error_nth _ _ _ Ev) in E; rewrite E.
    assert (Q : (sumR (column c rows) / IZR (len rows) * IZR (len rows) = sumR (column c rows))%R) by (field; lra).
    split; [exact Q|]; intros lo hi H; apply (mean_bounds _ (column c rows) lo hi); [destruct rows; [congruence|discriminate]| |exact H].
    unfold column at 2; rewrite len_map; exact Q.
  - intros f; destruct (C59_by_number R r_num s k rows f Hs) as (E & A & _).
    rewrite <- E; eexists; split; [apply A; [exact Hne|lia]|].
    cbn [n_mul r_num].
    assert (Hr' : rows_of_size k (map (map (fun x => x * f)%R) rows)) by (apply rows_map; exact Hr).
    rewrite (@mean_vector R r_num _ k (map (map (fun x => x * f)%R) rows)); [| |exact Hk].
    + cbn [n_div n_of_Z n_add r_num]; fold (S (map (map (fun x => x * f)%R) rows)); do 2 f_equal; rewrite map_map, len_map.
      apply nth_ext with (d := 0%R) (d' := 0%R).
      * rewrite !map_length; destruct (SC _ O Hr' ltac:(lia)) as [_ E2]; unfold len in *; lia.
      * intros c Hc; rewrite map_length in Hc.
        assert (Hck : Z.of_nat c < k) by (destruct (SC _ O Hr' ltac:(lia)) as [_ E2]; unfold len in *; lia).
        rewrite !(nth_map_in _ _ c 0%R) by (unfold len in *; lia).
        destruct (SC _ c Hr' Hck) as [E1 _]; destruct (SC _ c Hr Hck) as [E2 _]; rewrite E1, E2.
        assert (E3 : column c (map (map (fun x => x * f)%R) rows) = map (fun x => x * f)%R (column c rows)).
        { unfold column; rewrite !map_map; apply map_ext_in; intros r Hin.
          apply (nth_map_in (fun x => x * f)%R r c 0%R 0%R); unfold rows_of_size in Hr; rewrite Forall_forall in Hr; specialize (Hr r Hin); unfold len in Hr; lia. }
        rewrite E3, sumR_map_mul; field; lra.
    + apply repr_mk; try exact Hr'; try rewrite len_map; unfold repr in Hs; tauto || lia.
Qed.
Print Assumptions C68_vector.

(** ** C69 *)
(** sum of products of deviations from the means, divided by the number of values *)
Definition avg (xs : list R) : R := (sumR xs / IZR (len xs))%R.
Definition covR (xs ys : list R) : R :=
  (sumR (map2 (fun x y => (x - avg xs) * (y - avg ys)) xs ys) / IZR (len xs))%R.

Lemma covariance_covR (x y : Serie R) xs ys : repr x 1 (col xs) -> repr y 1 (col ys) -> xs <> [] -> len xs = len ys ->
  @covariance R r_num x y = Ok (covR xs ys).
Proof.
  intros Hx Hy Hne Hl; unfold covariance.
  rewrite (repr_count _ _ _ Hx), (repr_count _ _ _ Hy), (repr_itemSize _ _ _ Hx), (repr_itemSize _ _ _ Hy), !len_col, Hl, Z.eqb_refl.
  cbn [negb Z.eqb Pos.eqb].
  rewrite (@mean_scalar R r_num x xs Hx), (@mean_scalar R r_num y ys Hy); cbn [obind number].
  cbn [n_div n_add n_of_Z r_num]; rewrite !fold_left_sum, !Rplus_0_l; fold (avg xs) (avg ys).
  destruct (C57_sub_overloads R r_num) as (_ & Sv & _).
  rewrite (Sv x _ xs Hx), (Sv y _ ys Hy); cbn [obind n_sub r_num].
  assert (Lx : len (col xs) < 4294967296) by (unfold repr in Hx; tauto); rewrite len_col in Lx.
  destruct (C59_by_serie R r_num (mk 1 (col (map (fun a => a - avg xs)%R xs)) 3) (mk 1 (col (map (fun a => a - avg ys)%R ys)) 3)) as [Ms _].
  rewrite (Ms (map (fun a => a - avg xs)%R xs) (map (fun a => a - avg ys)%R ys)).
  2-3: apply repr_col_mk; rewrite len_map; lia.
  2: cbn [mk s_]; apply concat_col.
  2: rewrite !len_map; exact Hl.
  cbn [obind n_mul r_num].
  assert (Lm : len (map2 Rmult (map (fun a => a - avg xs)%R xs) (map (fun a => a - avg ys)%R ys)) = len xs)
    by (rewrite len_map2; rewrite !len_map; auto).
  pose proof (Props_Fold.C23_reduce_fold_left R r_num (mk 1 (col (map2 Rmult (map (fun a => a - avg xs)%R xs) (map (fun a => a - avg ys)%R ys))) 3)
    _ (fun acc value => acc + value / IZR (size x))%R 0%R ltac:(apply repr_col_mk; rewrite Lm; exact Lx)) as F.
  etransitivity; [exact F|]; f_equal.
  rewrite (repr_size _ _ _ Hx), len_col, Z.mul_1_l.
  pose proof (len_pos_R xs Hne) as P.
  assert (G : forall l a, fold_left (fun acc value => acc + value / IZR (len xs))%R l a = (a + sumR l / IZR (len xs))%R).
  { induction l as [|v l IH]; intros a; simpl; [field; lra|]; rewrite IH; field; lra. }
  rewrite G, Rplus_0_l; unfold covR; do 2 f_equal.
  clear -Hl; generalize (avg xs) as p, (avg ys) as q; intros p q; revert ys Hl; induction xs as [|a xs IH]; intros [|b ys] Hl; try reflexivity.
  cbn [map map2]; f_equal; apply IH; rewrite !len_cons in Hl; lia.
Qed.

Lemma sumR_sq_nonneg (f : R -> R) xs : (0 <= sumR (map2 (fun x y => f x * f y) xs xs))%R.
Proof. induction xs as [|x xs IH]; simpl; [lra|]; pose proof (Rle_0_sqr (f x)) as Q; unfold Rsqr in Q; lra. Qed.
Lemma sumR_sq_zero (f : R -> R) xs : sumR (map2 (fun x y => f x * f y)%R xs xs) = 0%R -> forall x, In x xs -> f x = 0%R.
Proof.
  induction xs as [|a xs IH]; intros E x Hx; [destruct Hx|]; simpl in E.
  pose proof (sumR_sq_nonneg f xs) as P; pose proof (Rle_0_sqr (f a)) as Q; unfold Rsqr in Q.
  destruct Hx as [<-|Hx]; [apply Rsqr_0_uniq; unfold Rsqr; lra|apply IH; [lra|exact Hx]].
Qed.
Lemma cauchy_schwarz (f g : R -> R) : forall xs ys, length xs = length ys ->
  let S := fun (p q : R -> R) a b => sumR (map2 (fun x y => p x * q y)%R a b) in
  (S f g xs ys * S f g xs ys <= S f f xs xs * S g g ys ys)%R.
Proof.
  induction xs as [|x xs IH]; intros [|y ys] Hl S; try discriminate; unfold S; simpl; [lra|].
  specialize (IH ys ltac:(simpl in Hl; lia)); cbv zeta in IH.
  pose proof (sumR_sq_nonneg f xs) as A; pose proof (sumR_sq_nonneg g ys) as B.
  set (a := sumR (map2 (fun x y => f x * f y)%R xs xs)) in *; set (b := sumR (map2 (fun x y => g x * g y)%R ys ys)) in *.
  set (c := sumR (map2 (fun x y => f x * g y)%R xs ys)) in *; set (u := f x) in *; set (v := g y) in *.
  assert (K : (2 * (c * (u * v)) <= a * (v * v) + b * (u * u))%R).
  { set (p := (a * (v * v))%R); set (q := (b * (u * u))%R); set (r := (c * (u * v))%R).
    assert (Hp : (0 <= p)%R) by (apply Rmult_le_pos; [exact A|apply Rle_0_sqr]).
    assert (Hq : (0 <= q)%R) by (apply Rmult_le_pos; [exact B|apply Rle_0_sqr]).
    assert (Hr : (r * r <= p * q)%R).
    { unfold p, q, r; replace (c * (u * v) * (c * (u * v)))%R with (c * c * ((u * v) * (u * v)))%R by ring.
      replace (a * (v * v) * (b * (u * u)))%R with (a * b * ((u * v) * (u * v)))%R by ring.
      apply Rmult_le_compat_r; [apply Rle_0_sqr|exact IH]. }
    destruct (Rle_lt_dec (2 * r) (p + q)) as [H|H]; [exact H|exfalso].
    assert (((p + q) * (p + q) < (2 * r) * (2 * r))%R) by (apply Rmult_le_0_lt_compat; lra).
    pose proof (Rle_0_sqr (p - q)) as Q; unfold Rsqr in Q; lra. }
  lra.
Qed.

Theorem C69_covariance :
  forall (x y : Serie R) xs ys,
  repr x 1 (col xs) -> repr y 1 (col ys) -> xs <> [] -> len xs = len ys ->
  exists cxy cxx cyy,
    @covariance R r_num x y = Ok cxy /\ @covariance R r_num y x = Ok cxy /\
    @covariance R r_num x x = Ok cxx /\ @covariance R r_num y y = Ok cyy /\
    (cxy = sumR (map2 (fun a b => (a - avg xs) * (b - avg ys)) xs ys) / IZR (len xs))%R /\
    (0 <= cxx)%R /\ (cxx = 0%R <-> forall a b, In a xs -> In b xs -> a = b) /\
    (cxy * cxy <= cxx * cyy)%R /\
    (forall v, exists x', @add_value R r_num x v = Ok x' /\ @covariance R r_num x' y = Ok cxy).
Proof.
  intros x y xs ys Hx Hy Hne Hl.
  assert (Hne' : ys <> []) by (intros ->; change (len (@nil R)) with 0 in Hl; apply len_0 in Hl; congruence).
  pose proof (len_pos_R xs Hne) as P.
  exists (covR xs ys), (covR xs xs), (covR ys ys).
  split; [apply covariance_covR; assumption|]; split.
  { rewrite (covariance_covR y x ys xs Hy Hx Hne' (eq_sym Hl)); f_equal; unfold covR; rewrite <- Hl; do 2 f_equal.
    assert (E : length xs = length ys) by (unfold len in Hl; lia).
    generalize (avg xs) as p, (avg ys) as q; clear -E; intros p q; revert ys E; induction xs as [|a xs IH]; intros [|b ys] E; try discriminate; [reflexivity|].
    cbn [map2]; f_equal; [ring|apply IH; simpl in E; lia]. }
  split; [apply covariance_covR; auto|]; split; [apply covariance_covR; auto|].
  split; [reflexivity|].
  pose proof (sumR_sq_nonneg (fun a => a - avg xs)%R xs) as N1.
  split; [unfold covR, Rdiv; apply Rmult_le_pos; [exact N1|left; apply Rinv_0_lt_compat; exact P]|].
  split; [|split].
  - split.
    + intros E; assert (Z : sumR (map2 (fun a b => (a - avg xs) * (b - avg xs))%R xs xs) = 0%R).
      { unfold covR, Rdiv in E; apply Rmult_integral in E; destruct E as [E|E]; [exact E|].
        exfalso; pose proof (Rinv_0_lt_compat _ P); lra. }
      intros a b Ha Hb; pose proof (sumR_sq_zero (fun a => a - avg xs)%R xs Z a Ha) as Ea; pose proof (sumR_sq_zero (fun a => a - avg xs)%R xs Z b Hb) as Eb.
      simpl in Ea, Eb; lra.
    + intros Hc; destruct xs as [|a0 xs']; [congruence|].
      assert (Ea : avg (a0 :: xs') = a0).
      { assert (B : (a0 <= avg (a0 :: xs') <= a0)%R); [|lra].
        apply (mean_bounds _ (a0 :: xs')); [exact Hne|unfold avg; field; lra|].
        intros z Hz; rewrite (Hc z a0 Hz (or_introl eq_refl)); lra. }
      unfold covR; rewrite Ea.
      assert (Z : sumR (map2 (fun a b => (a - a0) * (b - a0))%R (a0 :: xs') (a0 :: xs')) = 0%R); [|rewrite Z; unfold Rdiv; ring].
      clear -Hc; assert (H : forall z, In z (a0 :: xs') -> z = a0) by (intros z Hz; apply Hc; [exact Hz|left; reflexivity]).
      revert H; generalize (a0 :: xs') as l; induction l as [|z l IH]; intros H; [reflexivity|].
      cbn [map2 sumR fold_right]; fold (sumR (map2 (fun a b => (a - a0) * (b - a0))%R l l)); rewrite IH by (intros; apply H; right; assumption).
      rewrite (H z (or_introl eq_refl)); ring.
  - pose proof (cauchy_schwarz (fun a => a - avg xs)%R (fun b => b - avg ys)%R xs ys ltac:(unfold len in Hl; lia)) as CS; cbv zeta in CS.
    unfold covR; rewrite <- Hl.
    set (A := sumR (map2 (fun x y => (x - avg xs) * (y - avg ys))%R xs ys)); set (B := sumR (map2 (fun x y => (x - avg xs) * (y - avg xs))%R xs xs)).
    set (C := sumR (map2 (fun x y => (x - avg ys) * (y - avg ys))%R ys ys)); change (A * A <= B * C)%R in CS.
    replace (A / IZR (len xs) * (A / IZR (len xs)))%R with (A * A * (/ IZR (len xs) * / IZR (len xs)))%R by (field; lra).
    replace (B / IZR (len xs) * (C / IZR (len xs)))%R with (B * C * (/ IZR (len xs) * / IZR (len xs)))%R by (field; lra).
    apply Rmult_le_compat_r; [|exact CS].
    pose proof (Rinv_0_lt_compat _ P); apply Rmult_le_pos; lra.
  - intros v; destruct (C56_add_value R r_num x v) as [A _]; specialize (A xs Hx).
    assert (Lx : len (col xs) < 4294967296) by (unfold repr in Hx; tauto); rewrite len_col in Lx.
    eexists; split; [exact A|]; cbn [n_add r_num].
    rewrite (covariance_covR _ y (map (fun a => a + v)%R xs) ys).
    + f_equal; unfold covR; rewrite len_map; do 2 f_equal.
      assert (E : avg (map (fun a => a + v)%R xs) = (avg xs + v)%R)
        by (unfold avg; rewrite sumR_map_add, len_map; field; lra).
      rewrite E; generalize (avg xs) as p, (avg ys) as q; clear; intros p q; revert ys; induction xs as [|a xs IH]; intros [|b ys]; try reflexivity.
      cbn [map map2]; f_equal; [ring|apply IH].
    + apply repr_col_mk; rewrite len_map; exact Lx.
    + exact Hy.
    + destruct xs; [congruence|discriminate].
    + rewrite len_map; exact Hl.
Qed.
Print Assumptions C69_covariance.

Theorem C69_shapes :
  forall (T : Type) (NT : Num T) (x y : Serie T),
  count x <> count y \/ itemSize x <> 1 \/ itemSize y <> 1 -> covariance x y = Throw InvalidArgument.
Proof.
  intros T NT x y H; unfold covariance.
  destruct (Z.eqb_spec (count x) (count y)); [|reflexivity].
  destruct (Z.eqb_spec (itemSize x) 1); [|reflexivity].
  destruct (Z.eqb_spec (itemSize y) 1); [|reflexivity].
  destruct H as [H|[H|H]]; congruence.
Qed.
Print Assumptions C69_shapes.

Example C68_ex :
  repr (mk 1 (col [1; 2; 6]%R) 3) 1 (col [1; 2; 6]%R) /\ repr (mk 2 [[1; 2]; [3; 8]]%R 3) 2 [[1; 2]; [3; 8]]%R /\
  @mean R r_num (mk 1 (col [1; 2; 6]%R) 3) = Ok (Number 3%R) /\
  @mean R r_num (mk 2 [[1; 2]; [3; 8]]%R 3) = Ok (Vector [2; 5]%R) /\
  @mean R r_num (mk 1 [] 3) = Ok (Number (0 / 0)%R).
Proof.
  split; [repr_ex|]; split; [repr_ex|]; split; [|split; [|reflexivity]].
  - change (Ok (Number ((0 + 1 + 2 + 6) / 3)%R) = Ok (Number 3%R)); do 2 f_equal; lra.
  - change (Ok (Vector [(0 + 1 + 3) / 2; (0 + 2 + 8) / 2]%R) = Ok (Vector [2; 5]%R)); f_equal; f_equal; f_equal; [lra|f_equal; lra].
Qed.
Example C69_ex :
  repr (mk 1 (col [1; 3]%R) 3) 1 (col [1; 3]%R) /\ repr (mk 1 (col [5; 1]%R) 3) 1 (col [5; 1]%R) /\
  @covariance R r_num (mk 1 (col [1; 3]%R) 3) (mk 1 (col [5; 1]%R) 3) = Ok (-2)%R.
Proof.
  split; [repr_ex|]; split; [repr_ex|].
  rewrite (covariance_covR _ _ [1; 3]%R [5; 1]%R); [|repr_ex|repr_ex|discriminate|reflexivity].
  f_equal; unfold covR, avg; simpl; change (len [1; 3]%R) with 2; change (len [5; 1]%R) with 2; lra.
Qed.
