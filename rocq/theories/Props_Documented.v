(** * C129: the programs in README.md. *)
From Verif Require Import Base Num Serie Spec BaseFacts SerieFacts Functional FunctionalFacts Utils Mathf MathFacts AlgebraFacts Streams.
From Verif Require Import F64 F64Facts F64Arith F64Sum LinSpec Props_Functional Props_Filter Props_Fold Props_AddSub Props_Weighted Props_F64Int Props_F64Weighted Props_Streams Documented.
From Flocq Require Import Core IEEE754.BinarySingleNaN.
From Coq Require Import Reals Lra.
From Coq Require String.
Import String.StringSyntax.
Open Scope Z_scope.
Opaque f64_of_Z.

(** ** the weighted sum *)
(** what README.md displays, with the values x1 ... x4 *)
Definition sum_display {T} (x1 x2 x3 x4 : T) : list (token T) :=
  [Text "Serie:"; Endl; Text "  itemSize : "; IntT 2; Endl; Text "  count    : "; IntT 2; Endl; Text "  dimension: "; IntT 3; Endl;
   Text "  values   : ["; NumT x1; Text ", "; NumT x2; Text ", "; NumT x3; Text ", "; NumT x4; Text "]"].

(** any data of this shape, in binary64: 2a + 3b + 4c exactly for whole numbers up to 2^20.  The text goes to std::cerr although
    it is inserted into std::cout. *)
Theorem C129_sum_partial :
  forall (L : Libm) (a b c : Serie F64) ra rb rc B w,
  repr a 2 ra -> repr b 2 rb -> repr c 2 rc -> len ra = 2 -> len rb = 2 -> len rc = 2 ->
  wholes B ra -> wholes B rb -> wholes B rc -> 4 <= B <= 2 ^ 20 ->
  exists x1 x2 x3 x4, @show_sum F64 (f64_num L) a b c w = (Ok Cout, w ++ on Cerr (sum_display x1 x2 x3 x4)) /\
    Forall (fun x => is_finite x = true) [x1; x2; x3; x4] /\
    forall i j, (i < 2)%nat -> (j < 2)%nat ->
      B2R (nth (2 * i + j) [x1; x2; x3; x4] #0)
      = (2 * B2R (nth j (nth i ra []) #0) + 3 * B2R (nth j (nth i rb []) #0) + 4 * B2R (nth j (nth i rc []) #0))%R.
Proof.
  intros L a b c ra rb rc B w Ha Hb Hc La Lb Lc Wa Wb Wc HB.
  destruct (C120_whole L [a; b; c] 2 2 [ra; rb; rc] [#2; #3; #4] B) as (rows & E & Lr & Rr & V).
  - repeat (apply Forall2_cons; [split; assumption|]); apply Forall2_nil.
  - discriminate.
  - reflexivity.
  - lia.
  - lia.
  - repeat (apply Forall_cons; [assumption|]); apply Forall_nil.
  - repeat (apply Forall_cons; [apply whole_lit; lia|]); apply Forall_nil.
  - lia.
  - change (len [a; b; c]) with 3; assert (B * B <= 2 ^ 20 * 2 ^ 20) by (apply Z.mul_le_mono_nonneg; lia); lia.
  - destruct (len2 rows Lr) as (r1 & r2 & ->); inversion Rr as [|? ? L1 Rr1]; inversion Rr1 as [|? ? L2 _]; subst.
    destruct (len2 r1 L1) as (x1 & x2 & ->); destruct (len2 r2 L2) as (x3 & x4 & ->).
    exists x1, x2, x3, x4; split; [|split].
    + unfold show_sum, documented_sum; unfold mbind at 1, lift.
      change (@weigthedSum F64 (f64_num L) [a; b; c] [@n_of_Z F64 (f64_num L) 2; @n_of_Z F64 (f64_num L) 3; @n_of_Z F64 (f64_num L) 4])
        with (@weigthedSum F64 (f64_num L) [a; b; c] [#2; #3; #4]).
      rewrite E; cbv beta iota; rewrite (C111_serie_partial F64 (f64_num L)); [reflexivity|].
      split; [unfold mk; cbn [count_]; lia|]; intros _; unfold mk; cbn [s_]; split; [discriminate|].
      change (len (concat [[x1; x2]; [x3; x4]])) with 4; lia.
    + pose proof (V 0%nat 0%nat ltac:(lia) ltac:(lia)) as V1; pose proof (V 0%nat 1%nat ltac:(lia) ltac:(lia)) as V2.
      pose proof (V 1%nat 0%nat ltac:(lia) ltac:(lia)) as V3; pose proof (V 1%nat 1%nat ltac:(lia) ltac:(lia)) as V4.
      cbn [nth] in V1, V2, V3, V4; repeat (apply Forall_cons; [tauto|]); apply Forall_nil.
    + intros i j Hi Hj.
      assert (Ex : nth (2 * i + j) [x1; x2; x3; x4] #0 = nth j (nth i [[x1; x2]; [x3; x4]] []) #0).
      { destruct i as [|[|i]]; destruct j as [|[|j]]; try lia; reflexivity. }
      rewrite Ex; destruct (V i j ltac:(lia) ltac:(lia)) as [_ Ev]; rewrite Ev; unfold Props_F64Weighted.across; cbn [map].
      destruct (f64_of_Z_correct 2 ltac:(lia)) as (E2 & _ & _); destruct (f64_of_Z_correct 3 ltac:(lia)) as (E3 & _ & _);
        destruct (f64_of_Z_correct 4 ltac:(lia)) as (E4 & _ & _); rewrite E2, E3, E4.
      unfold inner, LinSpec.total; cbn [map2 fold_right]; ring.
Qed.
Print Assumptions C129_sum_partial.

(** the documented data: 22, 21, 16, 15 *)
Example C129_sum_ex :
  exists x1 x2 x3 x4, @show_sum F64 F64N (mk 2 [[#1; #2]; [#3; #4]] 3) (mk 2 [[#4; #3]; [#2; #1]] 3) (mk 2 [[#2; #2]; [#1; #1]] 3) []
    = (Ok Cout, on Cerr (sum_display x1 x2 x3 x4)) /\ map (@B2R 53 1024) [x1; x2; x3; x4] = [22; 21; 16; 15]%R.
Proof.
  destruct (C129_sum_partial libm0 (mk 2 [[#1; #2]; [#3; #4]] 3) (mk 2 [[#4; #3]; [#2; #1]] 3) (mk 2 [[#2; #2]; [#1; #1]] 3)
    [[#1; #2]; [#3; #4]] [[#4; #3]; [#2; #1]] [[#2; #2]; [#1; #1]] 4 []) as (x1 & x2 & x3 & x4 & E & _ & V);
    try reflexivity; try repr_ex; try whole_ex; try lia.
  exists x1, x2, x3, x4; split; [exact E|].
  pose proof (V 0%nat 0%nat ltac:(lia) ltac:(lia)) as V1; pose proof (V 0%nat 1%nat ltac:(lia) ltac:(lia)) as V2.
  pose proof (V 1%nat 0%nat ltac:(lia) ltac:(lia)) as V3; pose proof (V 1%nat 1%nat ltac:(lia) ltac:(lia)) as V4.
  cbn [nth Nat.mul Nat.add] in V1, V2, V3, V4; cbn [map].
  assert (Lit : forall z, Z.abs z <= 4 -> B2R (f64_of_Z z) = IZR z) by (intros z Hz; destruct (f64_of_Z_correct z ltac:(lia)) as (Q & _ & _); exact Q).
  pose proof (Lit 1 ltac:(lia)) as L1; pose proof (Lit 2 ltac:(lia)) as L2; pose proof (Lit 3 ltac:(lia)) as L3; pose proof (Lit 4 ltac:(lia)) as L4.
  assert (K : forall x y z (p q r : Z), B2R (f64_of_Z p) = x -> B2R (f64_of_Z q) = y -> B2R (f64_of_Z r) = z ->
    (2 * B2R (f64_of_Z p) + 3 * B2R (f64_of_Z q) + 4 * B2R (f64_of_Z r) = 2 * x + 3 * y + 4 * z)%R) by (intros; subst; reflexivity).
  assert (W1 : B2R x1 = 22%R) by (rewrite (eq_trans V1 (K _ _ _ _ _ _ L1 L4 L2)); lra).
  assert (W2 : B2R x2 = 21%R) by (rewrite (eq_trans V2 (K _ _ _ _ _ _ L2 L3 L2)); lra).
  assert (W3 : B2R x3 = 16%R) by (rewrite (eq_trans V3 (K _ _ _ _ _ _ L3 L2 L1)); lra).
  assert (W4 : B2R x4 = 15%R) by (rewrite (eq_trans V4 (K _ _ _ _ _ _ L4 L1 L1)); lra).
  rewrite W1, W2, W3, W4; reflexivity.
Qed.

(** ** the chain *)
Definition three_norm {T} {NT : Num T} (r : list T) : T :=
  n_sqrt (n_add (n_add (n_mul (nth 0 r n0) (nth 0 r n0)) (n_mul (nth 1 r n0) (nth 1 r n0))) (n_mul (nth 2 r n0) (nth 2 r n0))).

(** with items of three numbers or more, one line per item: its index and the norm of its first three numbers *)
Theorem C129_chain_partial :
  forall (T : Type) (NT : Num T) (a b c : Serie T) k n tables w,
  one_shape [a; b; c] k n tables -> 1 <= n -> 3 <= k ->
  exists rows, documented_sum a b c = Ok (mk k rows 3) /\ len rows = n /\
    documented_chain a b c w
    = (Ok tt, w ++ on Cout (concat (map (fun p => [IntT (snd p); Text ": "; NumT (three_norm (fst p)); Endl]) (enum rows)))).
Proof.
  intros T NT a b c k n tables w H Hn Hk.
  destruct (C61_weighted_sum T NT [a; b; c] k n tables [n_of_Z 2; n_of_Z 3; n_of_Z 4] H) as (rows & E & Lr & Rr & _); [discriminate|reflexivity|lia|lia|].
  exists rows; split; [exact E|]; split; [exact Lr|].
  assert (Bk : k < 2147483648 /\ len rows < 4294967296 /\ k * len rows < 4294967296).
  { inversion H as [|? t ? ? [Ra La] _]; unfold repr in Ra; rewrite Lr; rewrite La in Ra; lia. }
  assert (Rs : repr (mk k rows 3) k rows) by (apply repr_mk; auto; lia).
  unfold documented_chain; rewrite (mbind_ok _ _ w (mk k rows 3) w) by (unfold lift, documented_sum; rewrite E; reflexivity).
  set (ys := map three_norm rows).
  destruct (C09_map_number T NT (Out T) (mk k rows 3) w ys w) as [_ M].
  assert (Cm : forall i, calls (fun arr (_ : Z) => @lift (Out T) _ (norm_of arr)) (enum_from i rows) w ys w).
  { unfold ys; clear - Rr Hk; induction Rr as [|r rows Lr Rr IH]; intros i; cbn [map enum_from]; [constructor|].
    econstructor; [|apply IH].
    destruct r as [|x [|y [|z r]]]; try (rewrite ?len_cons in Lr; change (len (@nil T)) with 0 in Lr; lia).
    pose proof (len_nonneg r); rewrite !len_cons in Lr.
    assert (Lx : forall j, 0 <= j < 3 -> (0 <=? j) && (j <? len (x :: y :: z :: r)) = true).
    { intros j Hj; rewrite !len_cons; destruct (Z.leb_spec 0 j); destruct (Z.ltb_spec j (len r + 1 + 1 + 1)); try reflexivity; lia. }
    unfold lift, norm_of, rd; rewrite !Lx by lia; reflexivity. }
  rewrite (mbind_ok _ _ _ _ _ (M _ k rows Rs (Cm 0))).
  assert (Ry : repr (mk 1 (col ys) 3) 1 (col ys)) by (apply repr_col_mk; unfold ys; rewrite len_map; lia).
  unfold forEach_s; rewrite (repr_itemSize _ _ _ Ry); cbn [Z.eqb negb Pos.eqb].
  destruct (repr_col_len _ _ Ry) as [-> _].
  assert (Cf : forall i w, calls (fun v (j : Z) => put Cout [IntT j; Text ": "; NumT v; Endl]) (enum_from i ys) w (map (fun _ => tt) ys)
    (w ++ on Cout (concat (map (fun p => [IntT (snd p); Text ": "; NumT (three_norm (fst p)); Endl]) (enum_from i rows))))).
  { unfold ys; clear; induction rows as [|r rows IH]; intros i w; cbn [map enum_from concat].
    - unfold on; cbn [map]; rewrite app_nil_r; constructor.
    - econstructor; [unfold put; reflexivity|]; cbn [fst snd].
      change (map (pair Cout) [IntT i; Text ": "; NumT (three_norm r); Endl]) with (on Cout [IntT i; Text ": "; NumT (three_norm r); Endl]).
      rewrite on_app, app_assoc; apply IH. }
  rewrite (mbind_ok _ _ _ _ _ (each_ok _ _ ys w _ _ (reads_scalar _ _ Ry) (Cf 0 w))); reflexivity.
Qed.
Print Assumptions C129_chain_partial.

(** with items of two numbers, as in README.md, arr[2] is read beyond the end, whatever the values *)
Theorem C129_chain_refuted :
  forall (T : Type) (NT : Num T) (a b c : Serie T) n tables w,
  one_shape [a; b; c] 2 n tables -> 1 <= n -> fst (documented_chain a b c w) = UB.
Proof.
  intros T NT a b c n tables w H Hn.
  destruct (C61_weighted_sum T NT [a; b; c] 2 n tables [n_of_Z 2; n_of_Z 3; n_of_Z 4] H) as (rows & E & Lr & Rr & _); [discriminate|reflexivity|lia|lia|].
  assert (Bk : len rows < 4294967296 /\ 2 * len rows < 4294967296).
  { inversion H as [|? t ? ? [Ra La] _]; unfold repr in Ra; rewrite Lr; rewrite La in Ra; lia. }
  assert (Rs : repr (mk 2 rows 3) 2 rows) by (apply repr_mk; auto; lia).
  unfold documented_chain; rewrite (mbind_ok _ _ w (mk 2 rows 3) w) by (unfold lift, documented_sum; rewrite E; reflexivity).
  unfold map_vs, map_num; unfold mbind at 1 2.
  rewrite (repr_count _ _ _ Rs), (each_reads _ _ rows w (reads_array _ _ _ Rs)).
  destruct rows as [|r rows]; [change (len (@nil (list T))) with 0 in Lr; lia|].
  inversion Rr as [|? ? L1 _]; subst; destruct (len2 r L1) as (x & y & ->); reflexivity.
Qed.
Print Assumptions C129_chain_refuted.

Example C129_chain_ex :
  one_shape [mk 2 [[#1; #2]; [#3; #4]] 3; mk 2 [[#4; #3]; [#2; #1]] 3; mk 2 [[#2; #2]; [#1; #1]] 3] 2 2
    [[[#1; #2]; [#3; #4]]; [[#4; #3]; [#2; #1]]; [[#2; #2]; [#1; #1]]] /\
  one_shape [mk 3 [[#1; #2; #3]] 3; mk 3 [[#4; #3; #2]] 3; mk 3 [[#2; #2; #2]] 3] 3 1 [[[#1; #2; #3]]; [[#4; #3; #2]]; [[#2; #2; #2]]].
Proof. split; repeat (apply Forall2_cons; [split; [repr_ex|reflexivity]|]); apply Forall2_nil. Qed.

(** ** forEach over three Series *)
Definition brackets {T} (r : list T) : list (token T) := Text "[" :: shown r ++ [Text "]"].
Definition group {T} (p : list T * list T * list T * Z) : list (token T) :=
  let '(r1, r2, r3, i) := p in
  [Text "Index "; IntT i; Text ":"; Endl] ++ [Text "  v1 = "] ++ brackets r1 ++ [Text "  v2 = "] ++ brackets r2
  ++ [Text "  v3 = "] ++ brackets r3 ++ [Endl].
(** one group of tokens for each index: the item of each Serie at that index *)
Fixpoint groups {T} (i : Z) (t1 t2 t3 : list (list T)) : list (token T) :=
  match t1, t2, t3 with
  | r1 :: t1, r2 :: t2, r3 :: t3 => group (r1, r2, r3, i) ++ groups (i + 1) t1 t2 t3
  | _, _, _ => []
  end.

Lemma shift_across {T} (r1 r2 r3 : list T) t1 t2 t3 m : 
  map (Spec.across [r1 :: t1; r2 :: t2; r3 :: t3]) (seq 1 m) = map (Spec.across [t1; t2; t3]) (seq 0 m).
Proof. rewrite <- seq_shift, map_map; reflexivity. Qed.

Theorem C129_display_partial :
  forall (T : Type) (NT : Num T) (s1 s2 s3 : Serie T) k1 k2 k3 t1 t2 t3 w,
  repr s1 k1 t1 -> repr s2 k2 t2 -> repr s3 k3 t3 -> 1 <= k1 -> 1 <= k2 -> 1 <= k3 -> len t1 = len t2 -> len t1 = len t3 ->
  documented_forEach s1 s2 s3 w = (Ok tt, w ++ on Cout (groups 0 t1 t2 t3)).
Proof.
  intros T NT s1 s2 s3 k1 k2 k3 t1 t2 t3 w H1 H2 H3 K1 K2 K3 E2 E3.
  unfold documented_forEach.
  match goal with |- forEach_n ?cb _ _ = _ => set (f := cb) end.
  destruct (C22_forEach_multi T NT (Out T) [s1; s2; s3] [(k1, t1); (k2, t2); (k3, t3)] (len t1) w f) as [A _].
  - discriminate.
  - repeat (apply Forall2_cons; [assumption|]); apply Forall2_nil.
  - repeat (apply Forall_cons; [cbn [snd]; lia|]); apply Forall_nil.
  - assert (B1 : rows_of_size k1 t1 /\ k1 < 2147483648) by (unfold repr in H1; intuition lia).
    assert (B2 : rows_of_size k2 t2 /\ k2 < 2147483648) by (unfold repr in H2; intuition lia).
    assert (B3 : rows_of_size k3 t3 /\ k3 < 2147483648) by (unfold repr in H3; intuition lia).
    destruct B1 as [R1 B1], B2 as [R2 B2], B3 as [R3 B3].
    apply (A (map (fun _ => tt) t1)).
    change (map snd [(k1, t1); (k2, t2); (k3, t3)]) with [t1; t2; t3]; unfold tuples, enum.
    replace (Z.to_nat (len t1)) with (length t1) by (unfold len; lia).
    clear A H1 H2 H3; generalize 0 as i; revert t2 t3 w R2 R3 E2 E3.
    induction R1 as [|r1 t1 L1 R1 IH]; intros t2 t3 w R2 R3 E2 E3 i.
    + cbn [length seq map enum_from groups]; unfold on; cbn [map]; rewrite app_nil_r; constructor.
    + destruct t2 as [|r2 t2]; [rewrite len_cons in E2; pose proof (len_nonneg t1); change (len (@nil (list T))) with 0 in E2; lia|].
      destruct t3 as [|r3 t3]; [rewrite len_cons in E3; pose proof (len_nonneg t1); change (len (@nil (list T))) with 0 in E3; lia|].
      rewrite !len_cons in E2, E3; inversion R2 as [|? ? L2 R2']; inversion R3 as [|? ? L3 R3']; subst.
      cbn [length seq map enum_from groups]; rewrite shift_across.
      econstructor.
      * assert (N1 : r1 <> []) by (intros ->; change (len (@nil T)) with 0 in K1; lia).
        assert (N2 : r2 <> []) by (intros ->; change (len (@nil T)) with 0 in K2; lia).
        assert (N3 : r3 <> []) by (intros ->; change (len (@nil T)) with 0 in K3; lia).
        change (Spec.across [r1 :: t1; r2 :: t2; r3 :: t3] 0) with [r1; r2; r3].
        unfold f; unfold mbind at 1 2 3 4, lift, put at 1.
        change (rd [r1; r2; r3] 0) with (Ok r1); change (rd [r1; r2; r3] 1) with (Ok r2); change (rd [r1; r2; r3] 2) with (Ok r3).
        cbv beta iota.
        unfold mbind at 1; rewrite (C111_array_partial T NT) by (auto; lia).
        unfold mbind at 1, put at 1; unfold mbind at 1; rewrite (C111_array_partial T NT) by (auto; lia).
        unfold mbind at 1, put at 1; unfold mbind at 1; rewrite (C111_array_partial T NT) by (auto; lia).
        unfold put; reflexivity.
      * set (w1 := (_ ++ map (pair Cout) [Endl])).
        replace (w ++ on Cout (group (r1, r2, r3, i) ++ groups (i + 1) t1 t2 t3)) with (w1 ++ on Cout (groups (i + 1) t1 t2 t3)).
        -- apply IH; auto; lia.
        -- unfold w1, group, brackets, on; rewrite !map_app, <- !app_assoc; reflexivity.
Qed.
Print Assumptions C129_display_partial.

(** README.md shows the numbers of an item separated by blanks, each item on a line of its own, without brackets *)
Definition plain_item {T} (r : list T) : list (token T) := concat (map (fun x => [NumT x; Text " "]) r).
Definition documented_group {T} (p : list T * list T * list T * Z) : list (token T) :=
  let '(r1, r2, r3, i) := p in
  [Text "Index "; IntT i; Text ":"; Endl; Text "  v1 = "] ++ plain_item r1 ++ [Endl; Text "  v2 = "] ++ plain_item r2
  ++ [Endl; Text "  v3 = "] ++ plain_item r3 ++ [Endl].

(** this text is printed for no items at all *)
Theorem C129_display_refuted :
  forall (T : Type) (NT : Num T) (s1 s2 s3 : Serie T) k1 k2 k3 r1 r2 r3 w,
  repr s1 k1 [r1] -> repr s2 k2 [r2] -> repr s3 k3 [r3] -> 1 <= k1 -> 1 <= k2 -> 1 <= k3 ->
  documented_forEach s1 s2 s3 w <> (Ok tt, w ++ on Cout (documented_group (r1, r2, r3, 0))).
Proof.
  intros T NT s1 s2 s3 k1 k2 k3 r1 r2 r3 w H1 H2 H3 K1 K2 K3.
  rewrite (C129_display_partial T NT s1 s2 s3 k1 k2 k3 [r1] [r2] [r3] w) by auto; intros E.
  injection E as E; apply app_inv_head in E.
  assert (L1 : 1 <= len r1) by (unfold repr, rows_of_size in H1; destruct H1 as (? & ? & ? & ? & H); try (inversion H; lia); repeat match goal with H : _ /\ _ |- _ => destruct H | H : Forall _ [r1] |- _ => inversion H; subst; clear H end; lia).
  destruct r1 as [|x r1]; [change (len (@nil T)) with 0 in L1; lia|].
  discriminate E.
Qed.
Print Assumptions C129_display_refuted.

Example C129_display_ex :
  exists w, documented_forEach (mk 1 (col [#10; #20]) 3) (mk 2 [[#1; #2]; [#3; #4]] 3) (mk 3 [[#1; #2; #3]; [#4; #5; #6]] 3) [] = (Ok tt, on Cout w) /\
    firstn 12 w = [Text "Index "; IntT 0; Text ":"; Endl; Text "  v1 = "; Text "["; NumT #10; Text "]"; Text "  v2 = "; Text "["; NumT #1; Text ", "].
Proof.
  exists (groups 0 (col [#10; #20]) [[#1; #2]; [#3; #4]] [[#1; #2; #3]; [#4; #5; #6]]); split; [|reflexivity].
  rewrite (C129_display_partial F64 F64N _ _ _ 1 2 3 (col [#10; #20]) [[#1; #2]; [#3; #4]] [[#1; #2; #3]; [#4; #5; #6]]);
    try reflexivity; try repr_ex; lia.
Qed.
