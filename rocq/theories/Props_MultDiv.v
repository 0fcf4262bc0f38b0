(** * C59 - C61: mult, scale, div, weigthedSum. *)
From Verif Require Import Base Num Serie Spec BaseFacts SerieFacts Functional FunctionalFacts Mathf MathFacts F64 F64Facts F64Arith RNum.
From Verif Require Import Props_Functional.
From Flocq Require Import Core IEEE754.BinarySingleNaN.
From Coq Require Import Reals Lra.
Open Scope Z_scope.
#[local] Existing Instance F64N.
Opaque f64_of_Z.

(** ** C59 *)
Section Scaling.
  Context {T : Type} {NT : Num T}.

  Lemma repr_bounds (s : Serie T) k rows : repr s k rows -> 0 <= k < 2147483648 /\ len rows < 4294967296 /\ k * len rows < 4294967296.
  Proof. unfold repr; tauto. Qed.

  Lemma rows_map2_const k (rows : list (list T)) v : rows_of_size k rows -> len v = k -> rows_of_size k (map (fun r => map2 n_mul r v) rows).
  Proof. intros Hr Hv; induction Hr as [|r rows Lr Hr IH]; simpl; constructor; [rewrite len_map2; congruence|exact IH]. Qed.

  Lemma mult_ok (s : Serie T) k rows d : repr s k rows -> rows <> [] -> 1 <= k ->
    mult s d = Ok (mk k (map (map (fun x => n_mul x d)) rows) 3).
  Proof.
    intros Hs Hne Hk; pose proof (repr_rows _ _ _ Hs) as Hr; pose proof (repr_bounds _ _ _ Hs) as Hb; unfold mult.
    apply (run_map_vv _ s k rows); auto; [lia|apply map_length|apply rows_map; exact Hr|].
    intros j r y Hj Hy; rewrite nth_error_map, Hj in Hy; injection Hy as <-; unfold lift; rewrite upd_each_map; reflexivity.
  Qed.
  Lemma scale_ok (s : Serie T) k rows d : repr s k rows -> rows <> [] -> 1 <= k ->
    scale s d = Ok (mk k (map (map (fun x => n_mul x d)) rows) 3).
  Proof.
    intros Hs Hne Hk; pose proof (repr_rows _ _ _ Hs) as Hr; pose proof (repr_bounds _ _ _ Hs) as Hb; unfold scale.
    rewrite (repr_itemSize _ _ _ Hs).
    apply (run_map_vv _ s k rows); auto; [lia|apply map_length|apply rows_map; exact Hr|].
    intros j r y Hj Hy; rewrite nth_error_map, Hj in Hy; injection Hy as <-; unfold lift.
    rewrite <- (rows_nth_len _ _ _ _ Hr Hj), upd_each_map; reflexivity.
  Qed.
End Scaling.

Theorem C59_by_number :
  forall (T : Type) (NT : Num T) (s : Serie T) k rows d,
  repr s k rows ->
  mult s d = scale s d /\
  (rows <> [] -> 1 <= k -> mult s d = Ok (mk k (map (map (fun x => n_mul x d)) rows) 3)) /\
  (rows = [] -> mult s d = Ok (mk 0 [] 3)).
Proof.
  intros T NT s k rows d Hs; split; [|split].
  - unfold mult, scale; rewrite (repr_itemSize _ _ _ Hs).
    apply (map_vv_ext _ _ s k rows Hs); intros r i st ->; reflexivity.
  - intros Hne Hk; apply mult_ok; assumption.
  - intros ->; apply (run_map_vv_empty _ s k Hs).
Qed.
Print Assumptions C59_by_number.

Theorem C59_by_factors :
  forall (T : Type) (NT : Num T) (s : Serie T) factors,
  (forall k rows, repr s k rows -> rows <> [] -> 1 <= k -> len factors = k ->
     scale_array s factors = Ok (mk k (map (fun r => map2 n_mul r factors) rows) 3)) /\
  (len factors <> itemSize s -> scale_array s factors = Throw InvalidArgument).
Proof.
  intros T NT s factors; unfold scale_array; split.
  - intros k rows Hs Hne Hk Hf; pose proof (repr_rows _ _ _ Hs) as Hr; pose proof (repr_bounds _ _ _ Hs) as Hb.
    rewrite (repr_itemSize _ _ _ Hs), Hf, Z.eqb_refl; cbn [negb].
    apply (run_map_vv _ s k rows); auto; [lia|apply map_length|apply rows_map2_const; assumption|].
    intros j r y Hj Hy; rewrite nth_error_map, Hj in Hy; injection Hy as <-; unfold lift.
    pose proof (rows_nth_len _ _ _ _ Hr Hj) as Lr.
    rewrite <- Lr, (upd_each_map2 n_mul) by congruence; reflexivity.
  - intros Hn; destruct (Z.eqb_spec (itemSize s) (len factors)) as [E|_]; [congruence|reflexivity].
Qed.
Print Assumptions C59_by_factors.

(** mult of two Series: scalars by scalars (nothing left over after the last item), items by scalars, items by items *)
Theorem C59_by_serie :
  forall (T : Type) (NT : Num T) (s m : Serie T),
  (forall xs ys, repr s 1 (col xs) -> repr m 1 (col ys) -> s_ s = xs -> len xs = len ys ->
     mult_serie s m = Ok (mk 1 (col (map2 n_mul xs ys)) 3)) /\
  (forall k rows ys, repr s k rows -> repr m 1 (col ys) -> 2 <= k -> rows <> [] -> len rows = len ys ->
     mult_serie s m = Ok (mk k (map2 (fun r d => map (fun x => n_mul x d) r) rows ys) 3)) /\
  (forall k rows mrows, repr s k rows -> repr m k mrows -> 2 <= k -> rows <> [] -> len rows = len mrows ->
     mult_serie s m = Ok (mk k (map2 (map2 n_mul) rows mrows) 3)).
Proof.
  intros T NT s m; split; [|split].
  - intros xs ys Hs Hm Ds Hl; unfold mult_serie.
    rewrite (repr_count _ _ _ Hs), (repr_count _ _ _ Hm), (repr_itemSize _ _ _ Hs), (repr_itemSize _ _ _ Hm), !len_col, Hl, Z.eqb_refl.
    cbn [negb Z.eqb Pos.eqb]; unfold asArray; rewrite Ds.
    assert (Dm : exists lo, s_ m = ys ++ lo) by (unfold repr in Hm; destruct Hm as (_ & _ & (lo & E) & _); exists lo; rewrite E, concat_col; reflexivity).
    destruct Dm as [lo Dm]; rewrite Dm.
    assert (Lr : length (createArray (len xs) (@n0 T NT)) = length xs).
    { pose proof (len_replicate (@n0 T NT) (len xs) (len_nonneg xs)) as E; unfold createArray, len in *; lia. }
    assert (U : upd_each (len xs) (fun i _ => let* x := rd xs i in let* y := rd (ys ++ lo) i in Ok (n_mul x y)) (createArray (len xs) n0)
                = Ok (map2 n_mul xs ys)).
    { replace (len xs) with (len (createArray (len xs) (@n0 T NT))) at 1 by (unfold len at 1 3; rewrite Lr; reflexivity).
      apply upd_each_ok; [rewrite Lr; apply map2_length; unfold len in Hl; lia|].
      intros j _ z _ Hz; apply nth_error_map2_inv in Hz; destruct Hz as (x & y & Hx & Hy & ->).
      rewrite (rd_nat _ _ _ Hx); cbn [obind]; rewrite (rd_nat _ _ y); [reflexivity|].
      rewrite nth_error_app1; [exact Hy|eapply nth_error_lt; exact Hy]. }
    rewrite U; cbn [obind]; apply serie_of_1; rewrite len_map2 by exact Hl.
    apply repr_bounds in Hs; rewrite len_col in Hs; lia.
  - intros k rows ys Hs Hm Hk Hne Hl; pose proof (repr_rows _ _ _ Hs) as Hr; pose proof (repr_bounds _ _ _ Hs) as Hb; unfold mult_serie.
    rewrite (repr_count _ _ _ Hs), (repr_count _ _ _ Hm), (repr_itemSize _ _ _ Hs), (repr_itemSize _ _ _ Hm), !len_col, Hl, Z.eqb_refl.
    replace (k =? 1) with false by (symmetry; apply Z.eqb_neq; lia); cbn [negb Z.eqb Pos.eqb].
    apply (run_map_vv _ s k rows); auto; [lia|apply map2_length; unfold len in Hl; lia| |].
    + clear -Hr; revert ys; induction Hr as [|r rows Lr Hr IH]; intros [|y ys]; simpl; constructor; [rewrite len_map; exact Lr|apply IH].
    + intros j r z Hj Hz; apply nth_error_map2_inv in Hz; destruct Hz as (r' & y & Hr' & Hy & ->).
      rewrite Hj in Hr'; injection Hr' as <-; unfold lift.
      rewrite (scalar_nth _ _ _ _ Hm Hy); cbn [obind]; rewrite upd_each_map; reflexivity.
  - intros k rows mrows Hs Hm Hk Hne Hl; pose proof (repr_rows _ _ _ Hs) as Hr; pose proof (repr_bounds _ _ _ Hs) as Hb; unfold mult_serie.
    rewrite (repr_count _ _ _ Hs), (repr_count _ _ _ Hm), (repr_itemSize _ _ _ Hs), (repr_itemSize _ _ _ Hm), Hl, !Z.eqb_refl.
    replace (k =? 1) with false by (symmetry; apply Z.eqb_neq; lia); cbn [negb].
    apply (run_map_vv _ s k rows); auto; [lia|apply map2_length; unfold len in Hl; lia|apply rows_map2; [exact Hr|apply (repr_rows _ _ _ Hm)]|].
    intros j r z Hj Hz; apply nth_error_map2_inv in Hz; destruct Hz as (r' & y & Hr' & Hy & ->).
    rewrite Hj in Hr'; injection Hr' as <-; unfold lift.
    rewrite (value_nth _ _ _ _ _ Hm Hy); cbn [obind].
    rewrite (upd_each_map2 n_mul); [reflexivity|].
    rewrite (rows_nth_len _ _ _ _ Hr Hj), (rows_nth_len _ _ _ _ (repr_rows _ _ _ Hm) Hy); reflexivity.
Qed.
Print Assumptions C59_by_serie.

(** wrong shapes *)
Theorem C59_shapes :
  forall (T : Type) (NT : Num T) (s m : Serie T),
  count s <> count m \/
  (itemSize s = 1 /\ itemSize m <> 1) \/
  (itemSize s <> 1 /\ itemSize m <> 1 /\ itemSize m <> itemSize s /\ exists k rows, repr s k rows /\ rows <> []) ->
  mult_serie s m = Throw InvalidArgument.
Proof.
  intros T NT s m H; unfold mult_serie.
  destruct (Z.eqb_spec (count s) (count m)) as [Hc|Hc]; [|reflexivity]; cbn [negb].
  destruct H as [H|[[Es Em]|(Es & Em & Esm & k & rows & Hs & Hne)]]; [congruence| |].
  - rewrite Es; apply Z.eqb_neq in Em; rewrite Em; reflexivity.
  - apply Z.eqb_neq in Es, Em, Esm; rewrite Es, Em, Esm; cbn [negb].
    unfold run, map_vv, map_arr; rewrite (repr_count _ _ _ Hs).
    destruct rows as [|r rows]; [congruence|].
    replace (len (r :: rows) =? 0) with false by (rewrite len_cons; pose proof (len_nonneg rows); symmetry; apply Z.eqb_neq; lia).
    unfold mbind, lift; rewrite (get_array_nth s k (r :: rows) O r Hs eq_refl : get_array s 0 = _); reflexivity.
Qed.
Print Assumptions C59_shapes.

(** in binary64: 1 is neutral, and the product of two Series of one shape does not depend on their order *)
Theorem C59_f64 :
  forall (L : Libm) (s m : Serie F64) k rows mrows,
  repr s k rows -> rows <> [] -> 1 <= k ->
  @scale F64 (f64_num L) s #1 = Ok (mk k rows 3) /\
  (repr m k mrows -> len rows = len mrows -> s_ s = concat rows -> s_ m = concat mrows ->
   @mult_serie F64 (f64_num L) s m = @mult_serie F64 (f64_num L) m s).
Proof.
  intros L s m k rows mrows Hs Hne Hk; split.
  - rewrite (@scale_ok F64 (f64_num L) s k rows) by assumption.
    rewrite (map_ext _ (fun r => r)), map_id; [reflexivity|].
    intros r; rewrite (map_ext _ (fun x => x)), map_id; [reflexivity|]; intros x; apply f64_mul_1.
  - intros Hm Hl Ds Dm.
    assert (Hne' : mrows <> []) by (intros ->; destruct rows; [congruence|rewrite len_cons in Hl; pose proof (len_nonneg rows); change (len (@nil (list F64))) with 0 in Hl; lia]).
    assert (Cm : forall a b : list F64, map2 f64_mul a b = map2 f64_mul b a).
    { induction a as [|x a IH]; intros [|y b]; simpl; try reflexivity; rewrite f64_mul_comm, IH; reflexivity. }
    assert (Cm2 : forall a b : list (list F64), map2 (map2 f64_mul) a b = map2 (map2 f64_mul) b a).
    { induction a as [|x a IH]; intros [|y b]; simpl; try reflexivity; rewrite Cm, IH; reflexivity. }
    destruct (Z.eq_dec k 1) as [->|Hk1].
    + destruct (rows_col_1 rows (repr_rows _ _ _ Hs)) as [xs ->]; destruct (rows_col_1 mrows (repr_rows _ _ _ Hm)) as [ys ->].
      rewrite concat_col in Ds, Dm; rewrite !len_col in Hl.
      rewrite (proj1 (C59_by_serie F64 (f64_num L) s m) xs ys), (proj1 (C59_by_serie F64 (f64_num L) m s) ys xs) by (auto; congruence).
      do 3 f_equal; apply Cm.
    + rewrite (proj2 (proj2 (C59_by_serie F64 (f64_num L) s m)) k rows mrows),
        (proj2 (proj2 (C59_by_serie F64 (f64_num L) m s)) k mrows rows) by (auto; try lia; congruence).
      do 2 f_equal; apply Cm2.
Qed.
Print Assumptions C59_f64.

Example C59_ex :
  let s := mk 2 [[#1; #2]; [#3; #4]] 3 in let m := mk 1 [[#10]; [#20]] 3 in
  repr s 2 [[#1; #2]; [#3; #4]] /\ repr m 1 (col [#10; #20]) /\
  mult s #5 = Ok (mk 2 [[#1 [*] #5; #2 [*] #5]; [#3 [*] #5; #4 [*] #5]] 3)%num /\
  scale_array s [#5; #6] = Ok (mk 2 [[#1 [*] #5; #2 [*] #6]; [#3 [*] #5; #4 [*] #6]] 3)%num /\
  scale_array s [#5] = Throw InvalidArgument /\
  mult_serie s m = Ok (mk 2 [[#1 [*] #10; #2 [*] #10]; [#3 [*] #20; #4 [*] #20]] 3)%num /\
  mult_serie s s = Ok (mk 2 [[#1 [*] #1; #2 [*] #2]; [#3 [*] #3; #4 [*] #4]] 3)%num /\
  mult_serie m m = Ok (mk 1 [[#10 [*] #10]; [#20 [*] #20]] 3)%num /\
  mult_serie m s = Throw InvalidArgument /\ mult_serie s (mk 3 [[#1; #2; #3]; [#4; #5; #6]] 3) = Throw InvalidArgument.
Proof. split; [repr_ex|]; split; [repr_ex|]; repeat split; reflexivity. Qed.

(** ** C60 *)
(** the divisor replaced by a guard when it is smaller than 1e-10 *)
Definition guarded {T} {NT : Num T} (x w : T) : T := if n_ltb (n_abs w) (n_ratio 1 10000000000) then n0 else n_div x w.

Theorem C60_div :
  forall (T : Type) (NT : Num T) (s : Serie T) k rows, repr s k rows ->
  (forall d, rows <> [] -> 1 <= k -> div_value d s = Ok (mk k (map (map (fun x => n_div x d)) rows) 3)) /\
  (forall divider ws, repr divider 1 (col ws) -> len ws = len rows -> rows <> [] -> 1 <= k ->
     div_serie divider s = Ok (mk k (map2 (fun r w => map (fun x => guarded x w) r) rows ws) 3)).
Proof.
  intros T NT s k rows Hs; pose proof (repr_rows _ _ _ Hs) as Hr; pose proof (repr_bounds _ _ _ Hs) as Hb; split.
  - intros d Hne Hk; unfold div_value.
    apply (run_map_vv _ s k rows); auto; [lia|apply map_length|apply rows_map; exact Hr|].
    intros j r y Hj Hy; rewrite nth_error_map, Hj in Hy; injection Hy as <-; unfold lift; rewrite upd_each_map; reflexivity.
  - intros divider ws Hd Hl Hne Hk; unfold div_serie.
    assert (V : forall (u : Serie T) q rs, repr u q rs -> 1 <= q -> rs <> [] -> isValid u = true).
    { intros u q rs Hu Hq _; unfold isValid; rewrite (repr_itemSize_ _ _ _ Hu); apply Z.ltb_lt; lia. }
    rewrite (V s k rows Hs) by assumption; rewrite (V divider 1 (col ws) Hd); [|lia|].
    2:{ destruct rows; [congruence|]; destruct ws; [rewrite len_cons in Hl; pose proof (len_nonneg rows); change (len (@nil T)) with 0 in Hl; lia|discriminate]. }
    rewrite (repr_count _ _ _ Hs), (repr_count _ _ _ Hd), (repr_itemSize _ _ _ Hs), (repr_itemSize _ _ _ Hd), len_col, Hl, !Z.eqb_refl.
    cbn [negb orb].
    destruct (Z.eqb_spec k 1) as [->|Hk1].
    + destruct (rows_col_1 rows Hr) as [xs ->]; rewrite len_col in *.
      replace (map2 (fun r w => map (fun x => guarded x w) r) (col xs) ws) with (col (map2 guarded xs ws))
        by (clear; revert ws; induction xs as [|x xs IH]; intros [|w ws]; simpl; [reflexivity..|]; f_equal; apply IH).
      apply (run_map_ss _ s xs); [exact Hs|apply map2_length; unfold len in Hl; lia|].
      intros j x z Hj Hz; apply nth_error_map2_inv in Hz; destruct Hz as (x' & w & Hx' & Hw & ->).
      rewrite Hj in Hx'; injection Hx' as <-; unfold mbind, lift.
      rewrite (get_double_nth _ _ _ _ Hd Hw); reflexivity.
    + apply (run_map_vv _ s k rows); auto; [lia|apply map2_length; unfold len in Hl; lia| |].
      * clear -Hr; revert ws; induction Hr as [|r rows Lr Hr IH]; intros [|y ys]; simpl; constructor; [rewrite len_map; exact Lr|apply IH].
      * intros j r z Hj Hz; apply nth_error_map2_inv in Hz; destruct Hz as (r' & w & Hr' & Hw & ->).
        rewrite Hj in Hr'; injection Hr' as <-; unfold mbind, lift.
        rewrite (get_double_nth _ _ _ _ Hd Hw); unfold guarded; fold (@n_tiny T NT).
        change (n_ratio 1 10000000000) with (@n_tiny T NT).
        assert (Lr : length (replicate (len r) (@n0 T NT)) = length r).
        { pose proof (len_replicate (@n0 T NT) (len r) (len_nonneg r)) as E; unfold len in *; lia. }
        destruct (n_ltb (n_abs w) n_tiny).
        -- unfold ret; do 2 f_equal; clear -Lr; unfold replicate, len in *; rewrite Nat2Z.id in *; clear Lr.
           induction r as [|x r IH]; simpl; [reflexivity|]; f_equal; exact IH.
        -- replace (len r) with (len (replicate (len r) (@n0 T NT))) at 1 by (unfold len at 1 3; rewrite Lr; reflexivity).
           f_equal; apply upd_each_ok; [rewrite Lr; apply map_length|].
           intros i _ y _ Hy; rewrite nth_error_map in Hy; destruct (nth_error r i) as [x|] eqn:Ex; [|discriminate].
           injection Hy as <-; rewrite (rd_nat _ _ _ Ex); reflexivity.
Qed.
Print Assumptions C60_div.

Theorem C60_shapes :
  forall (T : Type) (NT : Num T) (divider s : Serie T),
  isValid s = false \/ isValid divider = false \/ count divider <> count s \/ itemSize divider <> 1 ->
  div_serie divider s = Throw InvalidArgument.
Proof.
  intros T NT divider s H; unfold div_serie.
  destruct (isValid s); [|reflexivity]; destruct (isValid divider); [|reflexivity]; cbn [negb orb].
  destruct (Z.eqb_spec (count divider) (count s)) as [Hc|Hc]; [|reflexivity]; cbn [negb].
  destruct (Z.eqb_spec (itemSize divider) 1) as [Hi|Hi]; [|reflexivity].
  destruct H as [H|[H|[H|H]]]; congruence.
Qed.
Print Assumptions C60_shapes.

(** the first form refuses nothing: a Serie without items, valid or not, gives the empty Serie *)
Theorem C60_empty :
  forall (T : Type) (NT : Num T) (s : Serie T) d, count s = 0 -> div_value d s = Ok (mk 0 [] 3).
Proof. intros T NT s d H; unfold div_value, map_vv, map_arr; rewrite H; reflexivity. Qed.
Print Assumptions C60_empty.

(** in binary64: a divisor that is divided by is not zero, and a finite number divided by a number is a number *)
Lemma Bltb_zero_pos (t : F64) s : is_finite t = true -> (0 < B2R t)%R -> Bltb (B754_zero s) t = true.
Proof.
  intros Ft Pt; rewrite Bltb_correct by (try reflexivity; exact Ft); apply Rlt_bool_true; exact Pt.
Qed.
Lemma tiny_pos (L : Libm) : let t := @n_ratio F64 (f64_num L) 1 10000000000 in is_finite t = true /\ (0 < B2R t)%R.
Proof.
  cbv zeta; unfold n_ratio; cbn [n_div n_of_Z f64_num]; unfold f64_div.
  destruct (f64_of_Z_correct 1 ltac:(lia)) as (R1 & F1 & S1).
  destruct (f64_of_Z_correct 10000000000 ltac:(lia)) as (R2 & F2 & S2).
  pose proof (Bdiv_correct 53 1024 F64_prec F64_emax mode_NE (#1) (#10000000000)) as H.
  rewrite R1, R2 in H; specialize (H ltac:(apply IZR_neq; discriminate)); unfold round_mode in H.
  change (round radix2 (SpecFloat.fexp 53 1024) ZnearestE (1 / 10000000000)) with (rnd (1 / 10000000000)) in H.
  assert (Lo : (bpow radix2 (-40) <= rnd (1 / 10000000000))%R).
  { apply round_ge_generic; [typeclasses eauto|apply valid_rnd_N|apply generic_format_bpow; unfold SpecFloat.fexp, SpecFloat.emin; lia|].
    change (bpow radix2 (-40)) with (/ IZR (Z.pow_pos 2 40))%R; change (Z.pow_pos 2 40) with 1099511627776.
    unfold Rdiv; rewrite Rmult_1_l; apply Rinv_le; lra. }
  assert (Hi : (rnd (1 / 10000000000) <= 1)%R).
  { apply round_le_generic; [typeclasses eauto|apply valid_rnd_N|apply (fmt_int 1); lia|]; lra. }
  pose proof (bpow_gt_0 radix2 (-40)) as P.
  rewrite Rlt_bool_true in H.
  - destruct H as (H1 & H2 & _); rewrite F1 in H2; split; [exact H2|]; rewrite H1; lra.
  - rewrite Rabs_pos_eq by lra; apply Rle_lt_trans with 1%R; [exact Hi|].
    change 1%R with (bpow radix2 0); apply bpow_lt; lia.
Qed.

Theorem C60_guard_f64 :
  forall (L : Libm) (x w : F64),
  @guarded F64 (f64_num L) x w = #0 \/
  (@guarded F64 (f64_num L) x w = f64_div x w /\ ~ is_zero w) .
Proof.
  intros L x w; unfold guarded; cbn [n_ltb n_abs n_div f64_num].
  destruct (Bltb (Babs w) (@n_ratio F64 (f64_num L) 1 10000000000)) eqn:E; [left; reflexivity|right; split; [reflexivity|]].
  intros [s ->]; simpl in E.
  destruct (tiny_pos L) as [Ft Pt]; rewrite Bltb_zero_pos in E by assumption; discriminate.
Qed.
Print Assumptions C60_guard_f64.

Theorem C60_no_nan :
  forall (L : Libm) (x w : F64),
  is_finite x = true -> is_nan w = false ->
  is_nan (@guarded F64 (f64_num L) x w) = false.
Proof.
  intros L x w Fx Nw; destruct (C60_guard_f64 L x w) as [->|[-> Nz]]; [reflexivity|].
  unfold f64_div; destruct w as [s|s| |s m e He]; [exfalso; apply Nz; eexists; reflexivity| |discriminate|].
  - destruct x; try discriminate; reflexivity.
  - pose proof (Bdiv_correct 53 1024 F64_prec F64_emax mode_NE x (B754_finite s m e He) (finite_nz s m e He)) as H.
    destruct (Rlt_bool _ _).
    + destruct H as (_ & H & _); rewrite Fx in H; apply nan_finite; exact H.
    + destruct (Bdiv mode_NE x (B754_finite s m e He)); try reflexivity; simpl in H; destruct (xorb _ _); discriminate.
Qed.
Print Assumptions C60_no_nan.

Example C60_ex :
  let s := mk 2 [[#1; #2]; [#3; #4]] 3 in let w := mk 1 [[B754_zero true]; [f64_inf]] 3 in
  repr s 2 [[#1; #2]; [#3; #4]] /\ repr w 1 (col [B754_zero true; f64_inf]) /\
  div_serie w s = Ok (mk 2 [[guarded #1 (B754_zero true); guarded #2 (B754_zero true)]; [guarded #3 f64_inf; guarded #4 f64_inf]] 3) /\
  guarded #1 (B754_zero true) = #0 /\ guarded #3 f64_inf = f64_div #3 f64_inf /\
  div_serie s s = Throw InvalidArgument /\ div_serie (mk 1 [] 3) s = Throw InvalidArgument.
Proof.
  cbv zeta; split; [repr_ex|]; split; [repr_ex|]; split; [|split; [|repeat split; reflexivity]].
  - apply (proj2 (C60_div F64 F64N (mk 2 [[#1; #2]; [#3; #4]] 3) 2 [[#1; #2]; [#3; #4]] ltac:(repr_ex)) (mk 1 [[B754_zero true]; [f64_inf]] 3) [B754_zero true; f64_inf]);
      [repr_ex|reflexivity|discriminate|lia].
  - unfold guarded; cbn [n_ltb n_abs F64N f64_num Babs]; destruct (tiny_pos libm0) as [Ft Pt].
    replace (Bltb (B754_zero false) _) with true by (symmetry; apply Bltb_zero_pos; assumption); reflexivity.
Qed.
