(** * C141: statistics under a change of units x -> a x + b. *)
From Coq Require Import Reals Lra Permutation Sorted.
From Flocq Require Import Core.
From Verif Require Import Base Num Serie Spec BaseFacts SerieFacts Functional FunctionalFacts Utils Mathf MathFacts MinMaxFacts Stats StatsFacts.
From Verif Require Import OrderFacts RNum Props_Functional Props_Filter Props_AddSub Props_MultDiv Props_Sort Props_MinMax Props_Mean Props_Quantile Props_Bins.
Open Scope Z_scope.

(** the change of units as a program would write it: [math::add(math::scale(s, a), b)] *)
Definition units (a b : R) (s : Serie R) : outcome (Serie R) :=
  let* t := @scale R r_num s a in @add_value R r_num t b.
Definition lin (a b x : R) : R := (x * a + b)%R.

Lemma units_ok a b (s : Serie R) xs : repr s 1 (col xs) -> xs <> [] ->
  units a b s = Ok (mk 1 (col (map (lin a b) xs)) 3) /\ repr (mk 1 (col (map (lin a b) xs)) 3) 1 (col (map (lin a b) xs)).
Proof.
  intros Hs Hne.
  assert (Lx : len (col xs) < 4294967296) by (unfold repr in Hs; tauto); rewrite len_col in Lx.
  split; [|apply repr_col_mk; rewrite len_map; exact Lx].
  unfold units; destruct (C59_by_number R r_num s 1 (col xs) a Hs) as (E & A & _).
  rewrite <- E, A; [|destruct xs; [congruence|discriminate]|lia]; cbn [obind]; rewrite map_col; cbn [n_mul r_num].
  destruct (C56_add_value R r_num (mk 1 (col (map (fun x => x * a)%R xs)) 3) b) as [B _].
  rewrite (B (map (fun x => x * a)%R xs)) by (apply repr_col_mk; rewrite len_map; exact Lx); rewrite map_map; reflexivity.
Qed.

(** ** mean and covariance *)
Lemma avg_lin a b xs : xs <> [] -> avg (map (lin a b) xs) = lin a b (avg xs).
Proof.
  intros Hne; pose proof (len_pos_R xs Hne) as P; unfold avg; rewrite len_map.
  assert (E : sumR (map (lin a b) xs) = (sumR xs * a + b * IZR (len xs))%R).
  { clear; induction xs as [|x xs IH]; cbn [map sumR fold_right]; [change (len (@nil R)) with 0; lra|].
    fold (sumR (map (lin a b) xs)) (sumR xs); rewrite IH, len_cons, plus_IZR; unfold lin; lra. }
  rewrite E; unfold lin; field; lra.
Qed.
Lemma covR_lin a b c d xs ys : xs <> [] -> len xs = len ys -> covR (map (lin a b) xs) (map (lin c d) ys) = (covR xs ys * (a * c))%R.
Proof.
  intros Hne Hl; pose proof (len_pos_R xs Hne) as P.
  assert (Hne' : ys <> []) by (intros ->; destruct xs; [congruence|]; rewrite len_cons in Hl; pose proof (len_nonneg xs); change (len (@nil R)) with 0 in Hl; lia).
  unfold covR; rewrite (avg_lin a b xs Hne), (avg_lin c d ys Hne'), len_map; generalize (avg xs), (avg ys); intros p q.
  assert (E : sumR (map2 (fun x y => (x - lin a b p) * (y - lin c d q))%R (map (lin a b) xs) (map (lin c d) ys)) = (sumR (map2 (fun x y => (x - p) * (y - q)) xs ys) * (a * c))%R).
  { clear; revert ys; induction xs as [|x xs IH]; intros [|y ys]; cbn [map map2 sumR fold_right]; try lra.
    change (fold_right Rplus 0%R) with sumR; rewrite IH; unfold lin; ring. }
  rewrite E; field; lra.
Qed.

Theorem C141_moments :
  forall (x y : Serie R) xs ys a b c d,
  repr x 1 (col xs) -> repr y 1 (col ys) -> xs <> [] -> len xs = len ys ->
  exists x' y' m cv, units a b x = Ok x' /\ units c d y = Ok y' /\
    @mean R r_num x = Ok (Number m) /\ @mean R r_num x' = Ok (Number (m * a + b)%R) /\
    @covariance R r_num x y = Ok cv /\ @covariance R r_num x' y' = Ok (cv * (a * c))%R.
Proof.
  intros x y xs ys a b c d Hx Hy Hne Hl.
  assert (Hne' : ys <> []) by (intros ->; destruct xs; [congruence|]; rewrite len_cons in Hl; pose proof (len_nonneg xs); change (len (@nil R)) with 0 in Hl; lia).
  destruct (units_ok a b x xs Hx Hne) as [Ex Rx]; destruct (units_ok c d y ys Hy Hne') as [Ey Ry].
  assert (M : forall t zs, repr t 1 (col zs) -> @mean R r_num t = Ok (Number (avg zs))).
  { intros t zs Ht; rewrite (@mean_scalar R r_num t zs Ht); cbn [n_div n_add n_of_Z r_num]; rewrite fold_left_sum; unfold avg; do 3 f_equal; lra. }
  exists (mk 1 (col (map (lin a b) xs)) 3), (mk 1 (col (map (lin c d) ys)) 3), (avg xs), (covR xs ys).
  split; [exact Ex|]; split; [exact Ey|]; split; [apply M, Hx|]; split; [rewrite (M _ _ Rx), avg_lin by exact Hne; reflexivity|].
  split; [apply covariance_covR; assumption|].
  rewrite (covariance_covR _ _ _ _ Rx Ry); [rewrite covR_lin by assumption; reflexivity|destruct xs; [congruence|discriminate]|rewrite !len_map; exact Hl].
Qed.
Print Assumptions C141_moments.

(** ** quantiles *)
Lemma interp_lin a b ss p : (0 <= p <= IZR (len ss - 1))%R -> interp (map (lin a b) ss) p = lin a b (interp ss p).
Proof.
  intros Hp; pose proof (floor_range p _ Hp) as Hf; unfold interp; rewrite len_map.
  assert (N : forall i, 0 <= i < len ss -> nth (Z.to_nat i) (map (lin a b) ss) 0%R = lin a b (nth (Z.to_nat i) ss 0%R)).
  { intros i Hi; apply nth_map_in; unfold len in Hi; lia. }
  destruct (Z.ltb_spec (Zfloor p + 1) (len ss)); rewrite !N by lia; [unfold lin; ring|reflexivity].
Qed.
Lemma interp_rev ss p : (0 <= p <= IZR (len ss - 1))%R -> interp (rev ss) (IZR (len ss - 1) - p) = interp ss p.
Proof.
  intros Hp; pose proof (floor_range p _ Hp) as Hf.
  set (N := len ss - 1) in *.
  assert (Hp' : (0 <= IZR N - p <= IZR N)%R) by lra.
  pose proof (floor_range _ _ Hp') as Hf'.
  assert (At : forall i, 0 <= i <= N -> nth (Z.to_nat i) (rev ss) 0%R = nth (Z.to_nat (N - i)) ss 0%R).
  { intros i Hi; unfold N, len in *; rewrite rev_nth by lia; f_equal; lia. }
  assert (Lr : len (rev ss) = N + 1) by (unfold N, len; rewrite rev_length; lia).
  assert (Ls : len ss = N + 1) by (unfold N; lia).
  pose proof (Zfloor_lb p) as A1; pose proof (Zfloor_ub p) as A2.
  unfold interp; rewrite Lr, Ls.
  destruct (Req_dec p (IZR (Zfloor p))) as [E|NE].
  - assert (F : Zfloor (IZR N - p) = N - Zfloor p) by (rewrite E, <- minus_IZR, Zfloor_IZR; rewrite E, Zfloor_IZR at 1; rewrite <- E; reflexivity).
    rewrite F, minus_IZR.
    replace (IZR N - p - (IZR N - IZR (Zfloor p)))%R with 0%R by lra; replace (p - IZR (Zfloor p))%R with 0%R by lra.
    rewrite !Rmult_0_l, !Rplus_0_r, (At (N - Zfloor p)) by lia; replace (N - (N - Zfloor p)) with (Zfloor p) by lia.
    destruct (_ <? _), (_ <? _); reflexivity.
  - assert (F : Zfloor (IZR N - p) = N - Zfloor p - 1).
    { apply Zfloor_imp; rewrite plus_IZR, !minus_IZR; split; [lra|]; assert (IZR (Zfloor p) < p)%R by lra; lra. }
    rewrite F in *; destruct (Z.ltb_spec (N - Zfloor p - 1 + 1) (N + 1)); [|lia]; destruct (Z.ltb_spec (Zfloor p + 1) (N + 1)); [|lia].
    rewrite (At (N - Zfloor p - 1)), (At (N - Zfloor p - 1 + 1)) by lia.
    replace (N - (N - Zfloor p - 1)) with (Zfloor p + 1) by lia; replace (N - (N - Zfloor p - 1 + 1)) with (Zfloor p) by lia.
    rewrite !minus_IZR; ring.
Qed.
Lemma sorted_map_pos a b ss : (0 < a)%R -> StronglySorted Rle ss -> StronglySorted Rle (map (lin a b) ss).
Proof.
  intros Ha; induction 1 as [|x ss Hs IH Hall]; cbn [map]; constructor; [exact IH|].
  apply Forall_map; eapply Forall_impl; [|exact Hall]; intros y Hy; unfold lin; apply Rplus_le_compat_r, Rmult_le_compat_r; lra.
Qed.
Lemma sorted_snoc (ss : list R) x : StronglySorted Rle ss -> Forall (fun y => (y <= x)%R) ss -> StronglySorted Rle (ss ++ [x]).
Proof.
  induction 1 as [|y ss Hs IH Hall]; intros F; cbn [app]; [repeat constructor|].
  inversion F; subst; constructor; [apply IH; assumption|]; apply Forall_app; split; [exact Hall|constructor; [assumption|constructor]].
Qed.
Lemma sorted_map_neg a b ss : (a < 0)%R -> StronglySorted Rle ss -> StronglySorted Rle (rev (map (lin a b) ss)).
Proof.
  intros Ha; induction 1 as [|x ss Hs IH Hall]; cbn [map rev]; [constructor|].
  apply sorted_snoc; [exact IH|]; apply Forall_rev, Forall_map; eapply Forall_impl; [|exact Hall].
  intros y Hy; unfold lin; apply Rplus_le_compat_r; nra.
Qed.
Lemma quantile_units (sorter : Sorter) (s : Serie R) xs a b q : conforms sorter -> repr s 1 (col xs) -> xs <> [] -> (0 <= q <= 1)%R ->
  exists v w, @quantile R r_num sorter s q = Ok v /\ @quantile R r_num sorter s (1 - q)%R = Ok w /\
    let s' := mk 1 (col (map (lin a b) xs)) 3 in
    ((0 < a)%R -> @quantile R r_num sorter s' q = Ok (lin a b v)) /\ ((a < 0)%R -> @quantile R r_num sorter s' q = Ok (lin a b w)).
Proof.
  intros Hc Hs Hne Hq; destruct (units_ok a b s xs Hs Hne) as [_ Rs].
  destruct (Hc R (@n_ltb R r_num) xs (r_swo xs)) as [P So]; set (ss := sorter R _ xs) in *; apply sorted_lt_le in So.
  assert (Ls : len ss = len xs) by (unfold len; rewrite (Permutation_length P); reflexivity).
  assert (Hne' : map (lin a b) xs <> []) by (destruct xs; [congruence|discriminate]).
  assert (L1 : (0 <= IZR (len xs - 1))%R) by (apply IZR_le; destruct xs; [congruence|]; rewrite len_cons; pose proof (len_nonneg xs); lia).
  assert (Hp : forall r, (0 <= r <= 1)%R -> (0 <= IZR (len xs - 1) * r <= IZR (len ss - 1))%R).
  { intros r Hr; rewrite Ls; split; [apply Rmult_le_pos; lra|]; rewrite <- (Rmult_1_r (IZR (len xs - 1))) at 2; apply Rmult_le_compat_l; lra. }
  exists (interp ss (IZR (len xs - 1) * q)), (interp ss (IZR (len xs - 1) * (1 - q))).
  split; [apply quantile_interp; assumption|]; split; [apply quantile_interp; try assumption; lra|]; cbv zeta; split; intros Ha.
  - rewrite (quantile_interp sorter Hc _ (map (lin a b) xs) (map (lin a b) ss) q Rs Hne' (Permutation_map _ P) (sorted_map_pos a b ss Ha So) Hq).
    rewrite len_map, interp_lin by (apply Hp; exact Hq); reflexivity.
  - assert (P' : Permutation (map (lin a b) xs) (rev (map (lin a b) ss))) by (rewrite <- Permutation_rev; apply Permutation_map, P).
    rewrite (quantile_interp sorter Hc _ (map (lin a b) xs) _ q Rs Hne' P' (sorted_map_neg a b ss Ha So) Hq).
    rewrite len_map, <- interp_lin by (apply Hp; lra); rewrite <- (interp_rev (map (lin a b) ss)) by (rewrite len_map; apply Hp; lra).
    do 2 f_equal; rewrite len_map, Ls; ring.
Qed.

Theorem C141_quantile :
  forall (sorter : Sorter) (s : Serie R) xs a b q,
  conforms sorter -> repr s 1 (col xs) -> xs <> [] -> (0 <= q <= 1)%R ->
  exists s' v w, units a b s = Ok s' /\ @quantile R r_num sorter s q = Ok v /\ @quantile R r_num sorter s (1 - q)%R = Ok w /\
    ((0 < a)%R -> @quantile R r_num sorter s' q = Ok (v * a + b)%R) /\ ((a < 0)%R -> @quantile R r_num sorter s' q = Ok (w * a + b)%R).
Proof.
  intros sorter s xs a b q Hc Hs Hne Hq; destruct (units_ok a b s xs Hs Hne) as [E _].
  destruct (quantile_units sorter s xs a b q Hc Hs Hne Hq) as (v & w & H1 & H2 & H3).
  eexists _, v, w; split; [exact E|]; split; [exact H1|]; split; [exact H2|exact H3].
Qed.
Print Assumptions C141_quantile.

(** ** outliers *)
Lemma filter_map {A B} (f : A -> B) (p : B -> bool) l : filter p (map f l) = map f (filter (fun x => p (f x)) l).
Proof. induction l as [|x l IH]; cbn [map filter]; [reflexivity|]; destruct (p (f x)); cbn [map]; rewrite IH; reflexivity. Qed.
Theorem C141_outliers :
  forall (sorter : Sorter) (s : Serie R) xs a b m,
  conforms sorter -> repr s 1 (col xs) -> xs <> [] -> a <> 0%R ->
  exists s' out nout mask, units a b s = Ok s' /\
    @outliers R r_num sorter s m = Ok (mk 1 (col out) 3) /\ @outliers R r_num sorter s' m = Ok (mk 1 (col (map (fun x => x * a + b)%R out)) 3) /\
    @notOutliers R r_num sorter s m = Ok (mk 1 (col nout) 3) /\ @notOutliers R r_num sorter s' m = Ok (mk 1 (col (map (fun x => x * a + b)%R nout)) 3) /\
    @isOutliers R r_num sorter s m = Ok mask /\ @isOutliers R r_num sorter s' m = Ok mask.
Proof.
  intros sorter s xs a b m Hc Hs Hne Ha; destruct (units_ok a b s xs Hs Hne) as [E Rs].
  destruct (quantile_units sorter s xs a b (1 / 4)%R Hc Hs Hne ltac:(lra)) as (v & w & V1 & W1 & P1 & N1).
  destruct (quantile_units sorter s xs a b (3 / 4)%R Hc Hs Hne ltac:(lra)) as (v' & w' & V2 & W2 & P2 & N2).
  replace (1 - 1 / 4)%R with (3 / 4)%R in W1 by lra; replace (1 - 3 / 4)%R with (1 / 4)%R in W2 by lra.
  rewrite V2 in W1; injection W1 as <-; rewrite V1 in W2; injection W2 as <-.
  assert (F : @fences R r_num sorter s m = Ok ((v - m * (v' - v))%R, (v' + m * (v' - v))%R)).
  { unfold fences, q25, q75; change (@n_ratio R r_num 1 4) with (1 / 4)%R; change (@n_ratio R r_num 3 4) with (3 / 4)%R; rewrite V1, V2; reflexivity. }
  set (s' := mk 1 (col (map (lin a b) xs)) 3) in *.
  assert (C : exists lo hi, @fences R r_num sorter s' m = Ok (lo, hi) /\
    forall x, (@n_ltb R r_num (lin a b x) lo || @n_ltb R r_num hi (lin a b x) = @n_ltb R r_num x (v - m * (v' - v))%R || @n_ltb R r_num (v' + m * (v' - v))%R x) /\
      (@n_leb R r_num lo (lin a b x) && @n_leb R r_num (lin a b x) hi = @n_leb R r_num (v - m * (v' - v))%R x && @n_leb R r_num x (v' + m * (v' - v))%R)).
  { unfold fences, q25, q75; change (@n_ratio R r_num 1 4) with (1 / 4)%R; change (@n_ratio R r_num 3 4) with (3 / 4)%R.
    set (lo0 := (v - m * (v' - v))%R); set (hi0 := (v' + m * (v' - v))%R).
    destruct (Rlt_le_dec 0 a) as [Hp|Hn].
    - rewrite (P1 Hp), (P2 Hp); cbn [obind]; eexists _, _; split; [reflexivity|]; cbv zeta; cbn [n_sub n_add n_mul n_ltb n_leb r_num]; intros x.
      replace (lin a b v - m * (lin a b v' - lin a b v))%R with (lin a b lo0) by (unfold lin, lo0; ring).
      replace (lin a b v' + m * (lin a b v' - lin a b v))%R with (lin a b hi0) by (unfold lin, hi0; ring).
      assert (K : forall p q, Rlt_bool (lin a b p) (lin a b q) = Rlt_bool p q).
      { intros p q; unfold lin; destruct (Rlt_bool_spec p q); [apply Rlt_bool_true; nra|apply Rlt_bool_false; nra]. }
      assert (K' : forall p q, Rle_bool (lin a b p) (lin a b q) = Rle_bool p q).
      { intros p q; unfold lin; destruct (Rle_bool_spec p q); [apply Rle_bool_true; nra|apply Rle_bool_false; nra]. }
      rewrite !K, !K'; split; reflexivity.
    - assert (Hn' : (a < 0)%R) by lra; clear Hn; rewrite (N1 Hn'), (N2 Hn'); cbn [obind]; eexists _, _; split; [reflexivity|]; cbv zeta; cbn [n_sub n_add n_mul n_ltb n_leb r_num]; intros x.
      replace (lin a b v' - m * (lin a b v - lin a b v'))%R with (lin a b hi0) by (unfold lin, hi0; ring).
      replace (lin a b v + m * (lin a b v - lin a b v'))%R with (lin a b lo0) by (unfold lin, lo0; ring).
      assert (K : forall p q, Rlt_bool (lin a b p) (lin a b q) = Rlt_bool q p).
      { intros p q; unfold lin; destruct (Rlt_bool_spec q p); [apply Rlt_bool_true; nra|apply Rlt_bool_false; nra]. }
      assert (K' : forall p q, Rle_bool (lin a b p) (lin a b q) = Rle_bool q p).
      { intros p q; unfold lin; destruct (Rle_bool_spec q p); [apply Rle_bool_true; nra|apply Rle_bool_false; nra]. }
      rewrite !K, !K'; split; [apply orb_comm|apply andb_comm]. }
  destruct C as (lo & hi & F' & K).
  destruct (C72_mask_and_items R r_num sorter s xs m _ _ Hs F) as (A1 & A2 & A3).
  destruct (C72_mask_and_items R r_num sorter s' _ m _ _ Rs F') as (B1 & B2 & B3).
  eexists s', _, _, _; split; [exact E|]; split; [exact A1|]; split.
  { rewrite B1, filter_map; do 4 f_equal; apply filter_ext; intros x; apply K. }
  split; [exact A3|]; split.
  { rewrite B3, filter_map; do 4 f_equal; apply filter_ext; intros x; apply K. }
  split; [exact A2|]; rewrite B2, map_map; do 3 f_equal; apply map_ext; intros x; rewrite (proj1 (K x)); reflexivity.
Qed.
Print Assumptions C141_outliers.

(** ** normalize and bins.  The bound is the largest double, from which the loop of minMax starts *)
Definition dblmax : R := IZR ((2 ^ 53 - 1) * 2 ^ 971).
Lemma minMax_R (s : Serie R) xs : repr s 1 (col xs) -> xs <> [] -> Forall (fun x => Rabs x <= dblmax)%R xs ->
  exists mn mx, @minMax R r_num s = Ok ([mn], [mx]) /\ In mn xs /\ In mx xs /\ forall x, In x xs -> (mn <= x <= mx)%R.
Proof.
  intros Hs Hne Hb.
  assert (Hg : Forall (fun _ : R => True) xs) by (apply Forall_forall; auto).
  destruct (@fold_min R r_num _ _ r_ordered xs Hg (@n_dblmax R r_num) I) as (_ & _ & B1 & I1).
  destruct (@fold_max R r_num _ _ r_ordered xs Hg (@n_lowest R r_num) I) as (_ & _ & B2 & I2).
  rewrite Forall_forall in Hb; unfold dblmax in Hb.
  set (D0 := IZR ((2 ^ 53 - 1) * 2 ^ 971)) in *.
  change (@n_dblmax R r_num) with D0 in *.
  assert (El : @n_lowest R r_num = (- D0)%R) by (unfold n_lowest; cbn [n_of_Z r_num]; apply opp_IZR).
  rewrite El in *.
  pose proof (@minMax_scalar R r_num s xs Hs Hne) as MM.
  change (@n_dblmax R r_num) with D0 in MM; rewrite El in MM.
  set (mn := fold_left (@n_min R r_num) xs D0) in *; set (mx := fold_left (@n_max R r_num) xs (- D0)%R) in *; cbv zeta in *.
  assert (U : exists u, In u xs) by (destruct xs as [|u l]; [congruence|exists u; left; reflexivity]); destruct U as [u Hu].
  pose proof (Hb u Hu) as Q; apply Rabs_le_inv in Q; pose proof (B1 u Hu) as Q1; pose proof (B2 u Hu) as Q2.
  exists mn, mx; split; [exact MM|]; split; [|split].
  - destruct I1 as [I1|I1]; [|exact I1]; replace mn with u by lra; exact Hu.
  - destruct I2 as [I2|I2]; [|exact I2]; replace mx with u by lra; exact Hu.
  - intros x Hx; split; [apply B1|apply B2]; exact Hx.
Qed.
Lemma minMax_units a b xs mn mx mn' mx' : (0 < a)%R ->
  In mn xs -> In mx xs -> (forall x, In x xs -> (mn <= x <= mx)%R) ->
  In mn' (map (lin a b) xs) -> In mx' (map (lin a b) xs) -> (forall x, In x (map (lin a b) xs) -> (mn' <= x <= mx')%R) ->
  mn' = lin a b mn /\ mx' = lin a b mx.
Proof.
  intros Ha I1 I2 B I1' I2' B'.
  apply in_map_iff in I1'; destruct I1' as (p & <- & Ip); apply in_map_iff in I2'; destruct I2' as (q & <- & Iq).
  pose proof (B' _ (in_map (lin a b) _ _ I1)) as C1; pose proof (B' _ (in_map (lin a b) _ _ I2)) as C2; pose proof (B p Ip); pose proof (B q Iq).
  unfold lin in *; split; f_equal; nra.
Qed.
Lemma minMax_units_neg a b xs mn mx mn' mx' : (a < 0)%R ->
  In mn xs -> In mx xs -> (forall x, In x xs -> (mn <= x <= mx)%R) ->
  In mn' (map (lin a b) xs) -> In mx' (map (lin a b) xs) -> (forall x, In x (map (lin a b) xs) -> (mn' <= x <= mx')%R) ->
  mn' = lin a b mx /\ mx' = lin a b mn.
Proof.
  intros Ha I1 I2 B I1' I2' B'.
  apply in_map_iff in I1'; destruct I1' as (p & <- & Ip); apply in_map_iff in I2'; destruct I2' as (q & <- & Iq).
  pose proof (B' _ (in_map (lin a b) _ _ I1)) as C1; pose proof (B' _ (in_map (lin a b) _ _ I2)) as C2; pose proof (B p Ip); pose proof (B q Iq).
  unfold lin in *; split; f_equal; nra.
Qed.
Lemma normalize_R (s : Serie R) xs mn mx : repr s 1 (col xs) -> @minMax R r_num s = Ok ([mn], [mx]) ->
  @normalize R r_num s = Ok (mk 1 (col (map (fun x => 1 / (mx - mn) * (x - mn))%R xs)) 3).
Proof.
  intros Hs MM; unfold normalize; rewrite (isValid_repr _ _ _ Hs), (repr_itemSize _ _ _ Hs); cbn [Z.ltb Z.compare negb Z.eqb Pos.eqb].
  rewrite MM; cbn [obind fst snd rd].
  apply (run_map_ss _ s xs); [exact Hs|apply map_length|].
  intros j x y Hj Hy; rewrite nth_error_map, Hj in Hy; injection Hy as <-; reflexivity.
Qed.

Theorem C141_normalize :
  forall (s : Serie R) xs a b,
  repr s 1 (col xs) -> (exists x y, In x xs /\ In y xs /\ x <> y) -> a <> 0%R ->
  Forall (fun x => Rabs x <= dblmax)%R xs -> Forall (fun x => Rabs (x * a + b) <= dblmax)%R xs ->
  exists s' ns, units a b s = Ok s' /\ @normalize R r_num s = Ok (mk 1 (col ns) 3) /\
    ((0 < a)%R -> @normalize R r_num s' = Ok (mk 1 (col ns) 3)) /\
    ((a < 0)%R -> @normalize R r_num s' = Ok (mk 1 (col (map (fun t => 1 - t)%R ns)) 3)).
Proof.
  intros s xs a b Hs (u & v & Hu & Hv & Huv) Ha Hb Hb'.
  assert (Hne : xs <> []) by (intros ->; destruct Hu).
  destruct (units_ok a b s xs Hs Hne) as [E Rs].
  destruct (minMax_R s xs Hs Hne Hb) as (mn & mx & MM & I1 & I2 & B).
  destruct (minMax_R _ _ Rs) as (mn' & mx' & MM' & I1' & I2' & B'); [destruct xs; [congruence|discriminate]|apply Forall_map; exact Hb'|].
  assert (Lt : (mn < mx)%R) by (pose proof (B u Hu); pose proof (B v Hv); destruct (Rtotal_order u v) as [|[|]]; lra).
  eexists _, _; split; [exact E|]; split; [apply (normalize_R s xs mn mx Hs MM)|].
  rewrite (normalize_R _ _ mn' mx' Rs MM'); split; intros Hs'; rewrite ?map_map; do 3 f_equal; apply map_ext; intros x.
  - destruct (minMax_units a b xs mn mx mn' mx') as [-> ->]; auto; unfold lin.
    assert (N : ((mx - mn) * a <> 0)%R) by (apply Rmult_integral_contrapositive_currified; lra).
    field; split; try lra; intros Z0; apply N; lra.
  - destruct (minMax_units_neg a b xs mn mx mn' mx') as [-> ->]; auto; unfold lin.
    assert (N : ((mx - mn) * a <> 0)%R) by (apply Rmult_integral_contrapositive_currified; lra).
    field; split; try lra; intros Z0; apply N; lra.
Qed.
Print Assumptions C141_normalize.

Lemma count_if_map {A B} (f : A -> B) p l : count_if p (map f l) = count_if (fun x => p (f x)) l.
Proof. unfold count_if; rewrite filter_map, len_map; reflexivity. Qed.
Lemma bins_units (s : Serie R) xs a b nb start stop start' stop' : repr s 1 (col xs) -> xs <> [] -> 1 <= nb < 4294967296 -> a <> 0%R -> start <> stop ->
  start' = lin a b start -> stop' = lin a b stop ->
  @bins_between R r_num (mk 1 (col (map (lin a b) xs)) 3) nb start' stop' = @bins_between R r_num s nb start stop.
Proof.
  intros Hs Hne Hn Ha Hd -> ->; destruct (units_ok a b s xs Hs Hne) as [_ Rs].
  assert (Pn : (0 < IZR nb)%R) by (apply IZR_lt; lia).
  set (size := @n_div R r_num (@n_sub R r_num stop start) (@n_of_Z R r_num nb)).
  set (size' := @n_div R r_num (@n_sub R r_num (lin a b stop) (lin a b start)) (@n_of_Z R r_num nb)).
  assert (Hb : forall v, @bin_of R r_num (lin a b start) size' (lin a b v) = @bin_of R r_num start size v).
  { intros v; unfold bin_of, size', size; cbn [n_sub n_div n_of_Z r_num]; do 2 f_equal; unfold lin; field.
    repeat split; try lra; replace (stop * a + b - (start * a + b))%R with ((stop - start) * a)%R by ring; apply Rmult_integral_contrapositive_currified; lra. }
  destruct (forallb (fun v => match @bin_of R r_num start size v with Ok _ => true | _ => false end) xs) eqn:F.
  - rewrite forallb_forall in F; set (raw := fun v => match @bin_of R r_num start size v with Ok i => i | _ => 0 end).
    assert (Q : forall v, In v xs -> @bin_of R r_num start size v = Ok (raw v)) by (intros v Hv; specialize (F v Hv); unfold raw; destruct (bin_of start size v); congruence).
    set (raw' := fun v => match @bin_of R r_num (lin a b start) size' v with Ok i => i | _ => 0 end).
    destruct (@bins_between_counts R r_num r_counters s xs nb start stop raw Hs Hn Q) as (cnt & E & Lc & _ & N).
    destruct (@bins_between_counts R r_num r_counters _ _ nb (lin a b start) (lin a b stop) raw' Rs Hn) as (cnt' & E' & Lc' & _ & N').
    { intros w Hw; apply in_map_iff in Hw; destruct Hw as (v & <- & Hv); unfold raw'; fold size'; rewrite Hb, (Q v Hv); reflexivity. }
    rewrite E, E'; do 4 f_equal; apply nth_ext with (d := 0) (d' := 0); [unfold len in *; lia|].
    intros m Hm; assert (Hm' : 0 <= Z.of_nat m < nb) by (unfold len in Lc'; lia).
    specialize (N _ Hm'); specialize (N' _ Hm'); rewrite Nat2Z.id in N, N'; rewrite N, N', count_if_map.
    unfold count_if; f_equal; apply filter_ext_in; intros v Hv; unfold raw', raw; rewrite Hb; reflexivity.
  - assert (X : exists v, In v xs /\ forall j, @bin_of R r_num start size v <> Ok j).
    { clear - F; induction xs as [|v xs IH]; [discriminate F|]; cbn [forallb] in F.
      destruct (bin_of start size v) as [i| |] eqn:E; cbn [andb] in F.
      - destruct (IH F) as (w & Iw & Hw); exists w; split; [right; exact Iw|exact Hw].
      - exists v; split; [left; reflexivity|]; intros j; congruence.
      - exists v; split; [left; reflexivity|]; intros j; congruence. }
    destruct X as (v & Iv & Hv).
    rewrite (@bins_between_ub R r_num r_counters s xs nb start stop Hs Hn), (@bins_between_ub R r_num r_counters _ _ nb (lin a b start) (lin a b stop) Rs Hn); [reflexivity| |].
    + fold size'; intros H; destruct (H (lin a b v) (in_map _ _ _ Iv)) as [j E]; rewrite Hb in E; exact (Hv j E).
    + fold size; intros H; destruct (H v Iv) as [j E]; exact (Hv j E).
Qed.

Theorem C141_bins :
  forall (s : Serie R) xs a b nb,
  repr s 1 (col xs) -> xs <> [] -> 1 <= nb < 4294967296 -> a <> 0%R ->
  exists s', units a b s = Ok s' /\
    (forall start stop, start <> stop -> @bins_between R r_num s' nb (start * a + b)%R (stop * a + b)%R = @bins_between R r_num s nb start stop) /\
    ((0 < a)%R -> (exists x y, In x xs /\ In y xs /\ x <> y) -> Forall (fun x => Rabs x <= dblmax)%R xs -> Forall (fun x => Rabs (x * a + b) <= dblmax)%R xs ->
     @bins R r_num s' nb = @bins R r_num s nb).
Proof.
  intros s xs a b nb Hs Hne Hn Ha; destruct (units_ok a b s xs Hs Hne) as [E Rs].
  eexists; split; [exact E|]; split.
  - intros start stop Hd; apply (bins_units s xs a b nb start stop); auto.
  - intros Pa (u & v & Hu & Hv & Huv) Hb Hb'.
    destruct (minMax_R s xs Hs Hne Hb) as (mn & mx & MM & I1 & I2 & B).
    destruct (minMax_R _ _ Rs) as (mn' & mx' & MM' & I1' & I2' & B'); [destruct xs; [congruence|discriminate]|apply Forall_map; exact Hb'|].
    assert (Lt : (mn < mx)%R) by (pose proof (B u Hu); pose proof (B v Hv); destruct (Rtotal_order u v) as [|[|]]; lra).
    destruct (minMax_units a b xs mn mx mn' mx') as [E1 E2]; auto.
    unfold bins; rewrite MM, MM'; cbn [obind fst snd].
    change (rd [mn] 0) with (Ok mn); change (rd [mx] 0) with (Ok mx); change (rd [mn'] 0) with (Ok mn'); change (rd [mx'] 0) with (Ok mx'); cbn [obind].
    apply (bins_units s xs a b nb mn mx); auto; lra.
Qed.
Print Assumptions C141_bins.

(** reversing the axis mirrors the histogram of [bins_between] only up to the bin edges: a value on an inner edge goes
    to the bin above it, before and after *)
Theorem C141_mirror_refuted :
  exists (s : Serie R) xs nb, repr s 1 (col xs) /\ 1 <= nb < 4294967296 /\ xs <> [] /\
  exists s' cs cs', units (-1) 0 s = Ok s' /\ @bins_between R r_num s nb 0%R 2%R = Ok (mk 1 (col cs) 3) /\
    @bins_between R r_num s' nb (-2)%R 0%R = Ok (mk 1 (col cs') 3) /\ cs' <> rev cs.
Proof.
  exists (mk 1 (col [1%R]) 3), [1%R], 2; split; [repr_ex|]; split; [lia|]; split; [discriminate|].
  assert (Hs : repr (mk 1 (col [1%R]) 3) 1 (col [1%R])) by repr_ex.
  destruct (units_ok (-1) 0 _ [1%R] Hs ltac:(discriminate)) as [E Rs].
  eexists _, _, _; split; [exact E|]; split; [|split].
  - apply (C73_intervals_partial _ [1%R] 2 0 2 Hs); [lia|lra|constructor; [lra|constructor]].
  - apply (C73_intervals_partial _ _ 2 (-2) 0 Rs); [lia|lra|constructor; [unfold lin; lra|constructor]].
  - change (iota 2) with [0; 1]; unfold count_if, in_bin, lin; cbn [map filter rev app]; change (0 + 1) with 1; change (1 + 1) with 2.
    repeat match goal with |- context [Rle_bool ?x ?y] => first [rewrite (Rle_bool_true x y) by lra | rewrite (Rle_bool_false x y) by lra] end.
    repeat match goal with |- context [Rlt_bool ?x ?y] => first [rewrite (Rlt_bool_true x y) by lra | rewrite (Rlt_bool_false x y) by lra] end.
    change (0 =? 2 - 1) with false; change (1 =? 2 - 1) with true; cbn [andb orb]; change (len (@nil R)) with 0.
    change (len [(1 * -1 + 0)%R]) with 1; change (len [1%R]) with 1; intros H; injection H as H1 H2; lra.
Qed.
Print Assumptions C141_mirror_refuted.

Example C141_ex :
  let xs := [0; 10; 100]%R in let s := mk 1 (col xs) 3 in
  repr s 1 (col xs) /\ xs <> [] /\ (exists x y, In x xs /\ In y xs /\ x <> y) /\
  Forall (fun x => Rabs x <= dblmax)%R xs /\ Forall (fun x => Rabs (x * (9 / 5) + 32) <= dblmax)%R xs /\
  units (9 / 5) 32 s = Ok (mk 1 (col [32; 50; 212]%R) 3).
Proof.
  cbv zeta.
  assert (Hs : repr (mk 1 (col [0; 10; 100]%R) 3) 1 (col [0; 10; 100]%R)) by repr_ex.
  assert (D : (1000 <= dblmax)%R) by (apply IZR_le; discriminate).
  split; [exact Hs|]; split; [discriminate|]; split; [exists 0%R, 10%R; simpl; split; [auto|split; [auto|lra]]|].
  split; [repeat (constructor; [apply Rabs_le; lra|]); constructor|].
  split; [repeat (constructor; [apply Rabs_le; lra|]); constructor|].
  destruct (units_ok (9 / 5) 32 _ _ Hs ltac:(discriminate)) as [-> _].
  unfold lin; cbn [map]; do 3 f_equal; f_equal; [lra|f_equal; [lra|f_equal; lra]].
Qed.
