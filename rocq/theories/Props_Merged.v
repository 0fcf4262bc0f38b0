(** * C137: statistics of a merged Serie from those of its parts. *)
From Coq Require Import Reals Lra.
From Flocq Require Import Core IEEE754.BinarySingleNaN.
From Verif Require Import Base Num Serie Spec BaseFacts SerieFacts Functional FunctionalFacts Utils Mathf MathFacts MinMaxFacts Stats StatsFacts.
From Verif Require Import F64 F64Facts F64Arith OrderFacts F64Round RNum Props_Functional Props_Merge Props_MinMax Props_Mean Props_Bins.
From Verif Require Import Props_Order.
Open Scope Z_scope.
Opaque f64_of_Z.

Lemma merged_col {T} {NT : Num T} (s1 s2 : Serie T) xs ys : repr s1 1 (col xs) -> repr s2 1 (col ys) -> len xs + len ys < 4294967296 ->
  merge2 s1 s2 true = Ok (mk 1 (col (xs ++ ys)) 3) /\ repr (mk 1 (col (xs ++ ys)) 3) 1 (col (xs ++ ys)).
Proof.
  intros H1 H2 Hl; assert (L : len (xs ++ ys) < 4294967296) by (rewrite len_app; exact Hl).
  split; [|apply repr_col_mk; exact L].
  rewrite (C27_merge_concat T NT s1 s2 1 (col xs) (col ys) H1 H2); [unfold col; rewrite map_app; reflexivity| |];
    rewrite len_app, !len_col; change (2 ^ 32) with 4294967296; lia.
Qed.
Lemma count_if_app {A} (p : A -> bool) l l' : count_if p (l ++ l') = count_if p l + count_if p l'.
Proof. unfold count_if; rewrite filter_app, len_app; reflexivity. Qed.

(** ** the histogram of the whole is the sum of those of the parts, and is defined when both are *)
Theorem C137_bins :
  forall (L : Libm) (s1 s2 : Serie F64) xs ys nb start stop,
  repr s1 1 (col xs) -> repr s2 1 (col ys) -> len xs + len ys < 4294967296 -> 1 <= nb < 4294967296 ->
  exists s, @merge2 F64 (f64_num L) s1 s2 true = Ok s /\
    ((@bins_between F64 (f64_num L) s1 nb start stop = UB \/ @bins_between F64 (f64_num L) s2 nb start stop = UB) /\ @bins_between F64 (f64_num L) s nb start stop = UB \/
     exists c1 c2, @bins_between F64 (f64_num L) s1 nb start stop = Ok (mk 1 (col (map f64_of_Z c1)) 3) /\
       @bins_between F64 (f64_num L) s2 nb start stop = Ok (mk 1 (col (map f64_of_Z c2)) 3) /\ len c1 = nb /\ len c2 = nb /\
       @bins_between F64 (f64_num L) s nb start stop = Ok (mk 1 (col (map f64_of_Z (map2 Z.add c1 c2))) 3)).
Proof.
  intros L s1 s2 xs ys nb start stop H1 H2 Hl Hn.
  destruct (@merged_col F64 (f64_num L) s1 s2 xs ys H1 H2 Hl) as [E Hs]; eexists; split; [exact E|]; set (s := mk 1 (col (xs ++ ys)) 3) in *.
  set (b := @bin_of F64 (f64_num L) start (@n_div F64 (f64_num L) (@n_sub F64 (f64_num L) stop start) (@n_of_Z F64 (f64_num L) nb))).
  assert (Dec : forall l, (forall v, In v l -> exists j, b v = Ok j) \/ ~ (forall v, In v l -> exists j, b v = Ok j)).
  { induction l as [|v l [IH|IH]]; [left; intros ? []| |right; intros H; apply IH; intros w Hw; apply H; right; exact Hw].
    destruct (b v) as [j| |] eqn:Ev; [left; intros w [<-|Hw]; [exists j; exact Ev|apply IH; exact Hw]| |];
      right; intros H; destruct (H v (or_introl eq_refl)) as [j Ej]; congruence. }
  destruct (Dec xs) as [X|X], (Dec ys) as [Y|Y].
  - right; set (raw := fun v => match b v with Ok i => i | _ => 0 end).
    assert (Rx : forall v, In v xs -> b v = Ok (raw v)) by (intros v Hv; unfold raw; destruct (X v Hv) as [j ->]; reflexivity).
    assert (Ry : forall v, In v ys -> b v = Ok (raw v)) by (intros v Hv; unfold raw; destruct (Y v Hv) as [j ->]; reflexivity).
    destruct (bins_between_counts (f64_counters L) s1 xs nb start stop raw H1 Hn Rx) as (c1 & E1 & L1 & _ & N1).
    destruct (bins_between_counts (f64_counters L) s2 ys nb start stop raw H2 Hn Ry) as (c2 & E2 & L2 & _ & N2).
    destruct (bins_between_counts (f64_counters L) s (xs ++ ys) nb start stop raw Hs Hn) as (c & E' & Lc & _ & N).
    { intros v Hv; apply in_app_iff in Hv; destruct Hv; auto. }
    exists c1, c2; split; [exact E1|]; split; [exact E2|]; split; [exact L1|]; split; [exact L2|]; rewrite E'; cbn [n_of_Z f64_num].
    replace (map2 Z.add c1 c2) with c; [reflexivity|].
    assert (Lm : length (map2 Z.add c1 c2) = length c1).
    { clear - L1 L2; assert (El : length c1 = length c2) by (unfold len in *; lia); clear L1 L2; revert c2 El; induction c1 as [|x c1 IH]; intros [|y c2] El; try discriminate El; [reflexivity|]; cbn [map2 length]; rewrite IH by (injection El; auto); reflexivity. }
    assert (Nm : forall m, nth m (map2 Z.add c1 c2) 0 = nth m c1 0 + nth m c2 0).
    { clear - L1 L2; assert (El : length c1 = length c2) by (unfold len in *; lia); clear L1 L2; revert c2 El; induction c1 as [|x c1 IH]; intros [|y c2] El; try discriminate El; intros [|m]; cbn [map2 nth]; try reflexivity; apply IH; injection El; auto. }
    apply nth_ext with (d := 0) (d' := 0); [unfold len in *; lia|]; intros m Hm; rewrite Nm.
    assert (Hm' : 0 <= Z.of_nat m < nb) by (unfold len in Lc; lia).
    specialize (N _ Hm'); specialize (N1 _ Hm'); specialize (N2 _ Hm'); rewrite Nat2Z.id in N, N1, N2; rewrite N, N1, N2; apply count_if_app.
  - left; split; [right; apply (bins_between_ub (f64_counters L) s2 ys nb start stop H2 Hn); exact Y|].
    apply (bins_between_ub (f64_counters L) s (xs ++ ys) nb start stop Hs Hn); intros H; apply Y; intros v Hv; apply H, in_app_iff; right; exact Hv.
  - left; split; [left; apply (bins_between_ub (f64_counters L) s1 xs nb start stop H1 Hn); exact X|].
    apply (bins_between_ub (f64_counters L) s (xs ++ ys) nb start stop Hs Hn); intros H; apply X; intros v Hv; apply H, in_app_iff; left; exact Hv.
  - left; split; [left; apply (bins_between_ub (f64_counters L) s1 xs nb start stop H1 Hn); exact X|].
    apply (bins_between_ub (f64_counters L) s (xs ++ ys) nb start stop Hs Hn); intros H; apply X; intros v Hv; apply H, in_app_iff; left; exact Hv.
Qed.
Print Assumptions C137_bins.

(** ** the smaller of the minima, the larger of the maxima *)
Theorem C137_minMax :
  forall (L : Libm) (s1 s2 : Serie F64) xs ys,
  repr s1 1 (col xs) -> repr s2 1 (col ys) -> len xs + len ys < 4294967296 -> xs <> [] -> ys <> [] ->
  Forall (fun x => is_finite x = true) xs -> Forall (fun x => is_finite x = true) ys ->
  exists s a1 b1 a2 b2 a b, @merge2 F64 (f64_num L) s1 s2 true = Ok s /\
    @minMax F64 (f64_num L) s1 = Ok ([a1], [b1]) /\ @minMax F64 (f64_num L) s2 = Ok ([a2], [b2]) /\ @minMax F64 (f64_num L) s = Ok ([a], [b]) /\
    B2R a = Rmin (B2R a1) (B2R a2) /\ B2R b = Rmax (B2R b1) (B2R b2).
Proof.
  intros L s1 s2 xs ys H1 H2 Hl Nx Ny Fx Fy.
  destruct (@merged_col F64 (f64_num L) s1 s2 xs ys H1 H2 Hl) as [E Hs].
  assert (Nz : xs ++ ys <> []) by (destruct xs; [congruence|discriminate]).
  assert (Fz : Forall (fun x => is_finite x = true) (xs ++ ys)) by (apply Forall_app; split; assumption).
  destruct (C62_scalar L s1 xs H1 Nx Fx) as (a1 & b1 & E1 & Ia1 & Ib1 & T1); destruct (C62_scalar L s2 ys H2 Ny Fy) as (a2 & b2 & E2 & Ia2 & Ib2 & T2).
  destruct (C62_scalar L _ (xs ++ ys) Hs Nz Fz) as (a & b & E' & Ia & Ib & T).
  rewrite Forall_forall in Fx, Fy, Fz; cbn [n_leb f64_num] in T, T1, T2.
  assert (V1 : forall x, In x xs -> (B2R a1 <= B2R x <= B2R b1)%R) by (intros x Hx; destruct (T1 x Hx); split; apply le_ok; auto).
  assert (V2 : forall x, In x ys -> (B2R a2 <= B2R x <= B2R b2)%R) by (intros x Hx; destruct (T2 x Hx); split; apply le_ok; auto).
  assert (V : forall x, In x (xs ++ ys) -> (B2R a <= B2R x <= B2R b)%R) by (intros x Hx; destruct (T x Hx); split; apply le_ok; auto).
  exists (mk 1 (col (xs ++ ys)) 3), a1, b1, a2, b2, a, b; repeat (split; [assumption|]).
  pose proof (V a1 (in_or_app _ _ _ (or_introl Ia1))); pose proof (V a2 (in_or_app _ _ _ (or_intror Ia2))).
  pose proof (V b1 (in_or_app _ _ _ (or_introl Ib1))); pose proof (V b2 (in_or_app _ _ _ (or_intror Ib2))).
  split.
  - apply Rle_antisym; [apply Rmin_glb; lra|]; apply in_app_iff in Ia; destruct Ia as [Ia|Ia]; [eapply Rle_trans; [apply Rmin_l|apply V1; exact Ia]|eapply Rle_trans; [apply Rmin_r|apply V2; exact Ia]].
  - apply Rle_antisym; [|apply Rmax_lub; lra]; apply in_app_iff in Ib; destruct Ib as [Ib|Ib]; [eapply Rle_trans; [apply V1; exact Ib|apply Rmax_l]|eapply Rle_trans; [apply V2; exact Ib|apply Rmax_r]].
Qed.
Print Assumptions C137_minMax.

(** ** exact arithmetic: the mean is the weighted mean; the covariance follows from those of the parts and the distance of their means *)
Lemma sumR_app l l' : sumR (l ++ l') = (sumR l + sumR l')%R.
Proof. unfold sumR; induction l as [|x l IH]; cbn [app fold_right]; lra. Qed.
Lemma map2_app {A B C} (f : A -> B -> C) l1 l2 r1 r2 : length l1 = length r1 -> map2 f (l1 ++ l2) (r1 ++ r2) = map2 f l1 r1 ++ map2 f l2 r2.
Proof. revert r1; induction l1 as [|x l1 IH]; intros [|y r1] E; try discriminate E; [reflexivity|]; cbn [app map2]; f_equal; apply IH; injection E; auto. Qed.
Lemma centred a b xs ys : length xs = length ys ->
  sumR (map2 (fun x y => (x - a) * (y - b))%R xs ys) = (sumR (map2 Rmult xs ys) - a * sumR ys - b * sumR xs + IZR (len xs) * a * b)%R.
Proof.
  revert ys; induction xs as [|x xs IH]; intros [|y ys] E; try discriminate E; [unfold sumR; cbn; change (len (@nil R)) with 0; lra|].
  rewrite len_cons, plus_IZR; unfold sumR in *; cbn [map2 fold_right]; rewrite IH by (injection E; auto); ring.
Qed.
Lemma covR_sums xs ys : length xs = length ys -> xs <> [] -> (covR xs ys * IZR (len xs) = sumR (map2 Rmult xs ys) - sumR xs * sumR ys / IZR (len xs))%R.
Proof.
  intros E Hne; pose proof (len_pos_R xs Hne) as P; unfold covR; rewrite (centred _ _ _ _ E); unfold avg.
  replace (len ys) with (len xs) by (unfold len; rewrite E; reflexivity); field; lra.
Qed.
Theorem C137_exact :
  forall (x1 x2 y1 y2 : Serie R) xs1 xs2 ys1 ys2,
  repr x1 1 (col xs1) -> repr x2 1 (col xs2) -> repr y1 1 (col ys1) -> repr y2 1 (col ys2) ->
  xs1 <> [] -> xs2 <> [] -> len xs1 = len ys1 -> len xs2 = len ys2 -> len xs1 + len xs2 < 4294967296 ->
  let n1 := IZR (len xs1) in let n2 := IZR (len xs2) in
  exists x y a1 a2 b1 b2 a c1 c2 c,
    @merge2 R r_num x1 x2 true = Ok x /\ @merge2 R r_num y1 y2 true = Ok y /\
    @mean R r_num x1 = Ok (Number a1) /\ @mean R r_num x2 = Ok (Number a2) /\ @mean R r_num y1 = Ok (Number b1) /\ @mean R r_num y2 = Ok (Number b2) /\
    @covariance R r_num x1 y1 = Ok c1 /\ @covariance R r_num x2 y2 = Ok c2 /\
    @mean R r_num x = Ok (Number a) /\ ((n1 + n2) * a = n1 * a1 + n2 * a2)%R /\
    @covariance R r_num x y = Ok c /\ ((n1 + n2) * c = n1 * c1 + n2 * c2 + n1 * n2 / (n1 + n2) * ((a1 - a2) * (b1 - b2)))%R.
Proof.
  intros x1 x2 y1 y2 xs1 xs2 ys1 ys2 X1 X2 Y1 Y2 N1 N2 L1 L2 Hl n1 n2.
  destruct (@merged_col R r_num x1 x2 xs1 xs2 X1 X2 Hl) as [Ex Hx]; destruct (@merged_col R r_num y1 y2 ys1 ys2 Y1 Y2 ltac:(lia)) as [Ey Hy].
  assert (M : forall t zs, repr t 1 (col zs) -> @mean R r_num t = Ok (Number (sumR zs / IZR (len zs))%R)).
  { intros t zs Ht; rewrite (@mean_scalar R r_num t zs Ht); cbn [n_div n_add n_of_Z r_num]; rewrite fold_left_sum; do 3 f_equal; lra. }
  assert (Nz : xs1 ++ xs2 <> []) by (destruct xs1; [congruence|discriminate]).
  pose proof (len_pos_R xs1 N1) as P1; pose proof (len_pos_R xs2 N2) as P2; fold n1 in P1; fold n2 in P2.
  eexists _, _, _, _, _, _, _, _, _, _; split; [exact Ex|]; split; [exact Ey|].
  split; [apply M; exact X1|]; split; [apply M; exact X2|]; split; [apply M; exact Y1|]; split; [apply M; exact Y2|].
  split; [apply (covariance_covR x1 y1 xs1 ys1); assumption|]; split; [apply (covariance_covR x2 y2 xs2 ys2); assumption|].
  split; [apply M; exact Hx|]; split.
  - rewrite len_app, plus_IZR, sumR_app; fold n1 n2; field; lra.
  - split; [apply covariance_covR; [exact Hx|exact Hy|exact Nz|rewrite !len_app; lia]|].
    assert (E1 : length xs1 = length ys1) by (unfold len in *; lia); assert (E2 : length xs2 = length ys2) by (unfold len in *; lia).
    pose proof (covR_sums xs1 ys1 E1 N1) as C1; pose proof (covR_sums xs2 ys2 E2 N2) as C2.
    pose proof (covR_sums (xs1 ++ xs2) (ys1 ++ ys2) ltac:(rewrite !app_length; lia) Nz) as C.
    rewrite <- L1, <- L2; fold n1 in C1 |- *; fold n2 in C2 |- *; rewrite len_app, plus_IZR in C; fold n1 n2 in C.
    rewrite (map2_app Rmult _ _ _ _ E1), !sumR_app in C.
    rewrite (Rmult_comm (n1 + n2)), C, (Rmult_comm n1 (covR _ _)), C1, (Rmult_comm n2 (covR _ _)), C2; field; lra.
Qed.
Print Assumptions C137_exact.

Example C137_ex :
  let s1 := mk 1 (col [#3; #1]) 3 in let s2 := mk 1 (col [#2; #5; #4]) 3 in
  repr s1 1 (col [#3; #1]) /\ repr s2 1 (col [#2; #5; #4]) /\
  Forall (fun x => is_finite x = true) [#3; #1] /\ Forall (fun x => is_finite x = true) [#2; #5; #4] /\
  match @bins_between F64 F64N s1 2 #1 #5, @bins_between F64 F64N s2 2 #1 #5 with Ok r, Ok r' => map show (s_ r) = map show [#1; #1] /\ map show (s_ r') = map show [#1; #2] | _, _ => False end.
Proof.
  cbv zeta; split; [repr_ex|]; split; [repr_ex|]; split; [repeat constructor|]; split; [repeat constructor|]; vm_compute; split; reflexivity.
Qed.
Example C137_exact_ex : repr (mk 1 (col [1; 2]%R) 3) 1 (col [1; 2]%R) /\ covR [1; 2]%R [1; 4]%R = (3 / 4)%R.
Proof. split; [repr_ex|]; unfold covR, avg, sumR; cbn [map2 fold_right]; change (len [1; 2]%R) with 2; change (len [1; 4]%R) with 2; field. Qed.
