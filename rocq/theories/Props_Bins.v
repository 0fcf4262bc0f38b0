(** * C73: bins. *)
From Verif Require Import Base Num Serie Spec BaseFacts SerieFacts Functional FunctionalFacts Utils Mathf MathFacts MinMaxFacts Stats StatsFacts.
From Verif Require Import F64 F64Facts OrderFacts RNum Props_Functional Props_MinMax.
From Coq Require Import Reals Lra.
From Flocq Require Import Core IEEE754.BinarySingleNaN.
Open Scope Z_scope.
Opaque f64_of_Z.

(** number of elements with a property *)
Definition count_if {A} (p : A -> bool) (l : list A) : Z := len (filter p l).

Lemma nth_error_seqZ a n m : (m < n)%nat -> nth_error (seqZ a n) m = Some (Z.of_nat (a + m)).
Proof.
  intros H; unfold seqZ; rewrite nth_error_map, (nth_error_nth' _ O) by (rewrite seq_length; exact H).
  rewrite seq_nth by exact H; reflexivity.
Qed.

Section Count.
  Context {A : Type} (idx : A -> Z).
  Definition bump (cnt : list Z) (v : A) : list Z := upd_nat cnt (Z.to_nat (idx v)) (nth (Z.to_nat (idx v)) cnt 0 + 1).
  Lemma bump_length cnt v : length (bump cnt v) = length cnt. Proof. apply upd_nat_length. Qed.
  Lemma nth_upd (l : list Z) n x m : (n < length l)%nat -> nth m (upd_nat l n x) 0 = if Nat.eqb n m then x else nth m l 0.
  Proof.
    revert n m; induction l as [|y l IH]; intros [|n] [|m] H; simpl in *; try lia; try reflexivity.
    apply IH; lia.
  Qed.
  Lemma sum_upd (l : list Z) n : (n < length l)%nat -> sumZ (upd_nat l n (nth n l 0 + 1)) = sumZ l + 1.
  Proof.
    unfold sumZ; revert n; induction l as [|y l IH]; intros [|n] H; simpl in *; try lia.
    rewrite IH by lia; lia.
  Qed.
  Lemma bumps_nth l : forall cnt j, (forall v, In v l -> 0 <= idx v < len cnt) -> 0 <= j ->
    nth (Z.to_nat j) (fold_left bump l cnt) 0 = nth (Z.to_nat j) cnt 0 + count_if (fun v => idx v =? j) l.
  Proof.
    induction l as [|v l IH]; intros cnt j H Hj; [unfold count_if; cbn [fold_left filter]; change (len (@nil A)) with 0; lia|]; cbn [fold_left].
    pose proof (H v (or_introl eq_refl)) as Hv.
    rewrite IH; [|intros w Hw; unfold len; rewrite bump_length; apply H; right; exact Hw|exact Hj].
    unfold bump at 1; rewrite nth_upd by (unfold len in Hv; lia); unfold count_if; cbn [filter].
    destruct (Z.eqb_spec (idx v) j) as [E|N].
    - rewrite E, Nat.eqb_refl, len_cons; lia.
    - replace (Nat.eqb (Z.to_nat (idx v)) (Z.to_nat j)) with false by (symmetry; apply Nat.eqb_neq; lia); reflexivity.
  Qed.
  Lemma bumps_sum l : forall cnt, (forall v, In v l -> 0 <= idx v < len cnt) ->
    sumZ (fold_left bump l cnt) = sumZ cnt + len l /\ length (fold_left bump l cnt) = length cnt.
  Proof.
    induction l as [|v l IH]; intros cnt H; [cbn [fold_left]; split; [change (len (@nil A)) with 0; lia|reflexivity]|]; cbn [fold_left].
    pose proof (H v (or_introl eq_refl)) as Hv.
    destruct (IH (bump cnt v)) as [E1 E2]; [intros w Hw; unfold len; rewrite bump_length; apply H; right; exact Hw|].
    rewrite E1, E2, bump_length; split; [|reflexivity].
    unfold bump; rewrite sum_upd by (unfold len in Hv; lia); rewrite len_cons; lia.
  Qed.
End Count.

(** the bin of a value whose index, before the clamp, is [i] *)
Definition clamp (nb i : Z) : Z := Z.min i (nb - 1).

Section Bins.
  Context {T : Type} {NT : Num T}.
  Hypothesis counters : forall a, 0 <= a < two32 -> n_add (n_of_Z a) (n_of_Z 1) = n_of_Z (a + 1).

  Definition bin_of (start size v : T) : outcome Z := n_to_u32 (n_trunc (n_div (n_sub v start) size)).

  Lemma bin_of_range start size v i : bin_of start size v = Ok i -> 0 <= i < two32.
  Proof.
    unfold bin_of, n_to_u32; destruct (n_to_Z _) as [z|]; [|discriminate].
    destruct (Z.leb_spec 0 z), (Z.ltb_spec z two32); cbn [andb]; try discriminate; intros E; injection E as <-; lia.
  Qed.
  Lemma bin_of_cases start size v : (exists i, bin_of start size v = Ok i) \/ bin_of start size v = UB.
  Proof. unfold bin_of, n_to_u32; destruct (n_to_Z _) as [z|]; [destruct (_ && _)|]; eauto. Qed.

  Lemma put_in_bin_ok nb start size v j cnt i : 1 <= nb -> len cnt = nb -> bin_of start size v = Ok i ->
    0 <= nth (Z.to_nat (clamp nb i)) cnt 0 < two32 ->
    put_in_bin nb start size v j (map n_of_Z cnt) = (Ok tt, map n_of_Z (bump (fun _ => clamp nb i) cnt v)).
  Proof.
    intros Hn Hl Hb Hc; pose proof (bin_of_range _ _ _ _ Hb) as Hi; unfold put_in_bin; unfold bin_of in Hb; rewrite Hb; cbn [obind].
    assert (Q : (if nb <=? i then nb - 1 else i) = clamp nb i) by (unfold clamp; destruct (Z.leb_spec nb i); lia).
    rewrite Q; set (c := clamp nb i) in *; assert (Hcr : 0 <= c < nb) by (unfold c, clamp; lia).
    destruct (Z.leb_spec nb c); [lia|].
    rewrite (rd_nth _ c (n_of_Z 0)) by (rewrite len_map; lia); cbn [obind].
    rewrite map_nth, wr_ok by (rewrite len_map; lia); rewrite counters by exact Hc.
    unfold bump; rewrite map_upd; reflexivity.
  Qed.

  Lemma put_calls nb start size (raw : T -> Z) xs : forall i cnt, 1 <= nb -> len cnt = nb ->
    (forall v, In v xs -> bin_of start size v = Ok (raw v)) ->
    Forall (fun c => 0 <= c /\ c + len xs <= two32) cnt ->
    calls (put_in_bin nb start size) (enum_from i xs) (map n_of_Z cnt) (map (fun _ => tt) xs)
      (map n_of_Z (fold_left (bump (fun v => clamp nb (raw v))) xs cnt)).
  Proof.
    induction xs as [|v xs IH]; intros i cnt Hn Hl Hb Hc; cbn [enum_from map fold_left]; [constructor|].
    assert (Hv := Hb v (or_introl eq_refl)); pose proof (bin_of_range _ _ _ _ Hv) as Hi.
    assert (Hcr : 0 <= clamp nb (raw v) < nb) by (unfold clamp; lia).
    rewrite len_cons in Hc; pose proof (len_nonneg xs) as Hx.
    assert (Hk : 0 <= nth (Z.to_nat (clamp nb (raw v))) cnt 0 /\ nth (Z.to_nat (clamp nb (raw v))) cnt 0 + (1 + len xs) <= two32).
    { rewrite Forall_forall in Hc; assert (In (nth (Z.to_nat (clamp nb (raw v))) cnt 0) cnt) as I by (apply nth_In; unfold len in Hl; lia).
      specialize (Hc _ I); lia. }
    econstructor.
    - apply (put_in_bin_ok nb start size v i cnt (raw v) Hn Hl Hv); lia.
    - apply IH; [exact Hn|unfold len; rewrite bump_length; exact Hl|intros w Hw; apply Hb; right; exact Hw|].
      unfold bump; apply Forall_forall; intros c I; apply In_nth with (d := 0) in I; destruct I as (m & Hm & <-).
      rewrite upd_nat_length in Hm; rewrite nth_upd by (unfold len in Hl; lia).
      destruct (Nat.eqb _ m); [lia|]; rewrite Forall_forall in Hc; specialize (Hc _ (nth_In cnt 0 Hm)); lia.
  Qed.

  Lemma put_ub nb start size xs : forall i cnt, 1 <= nb -> len cnt = nb ->
    Forall (fun c => 0 <= c /\ c + len xs <= two32) cnt ->
    ~ (forall v, In v xs -> exists j, bin_of start size v = Ok j) ->
    exists st', calls_ub (put_in_bin nb start size) (enum_from i xs) (map n_of_Z cnt) st'.
  Proof.
    induction xs as [|v xs IH]; intros i cnt Hn Hl Hc Hb; [exfalso; apply Hb; intros ? []|].
    destruct (bin_of_cases start size v) as [[j Hj]|Hu].
    - pose proof (bin_of_range _ _ _ _ Hj) as Hi.
      assert (Hcr : 0 <= clamp nb j < nb) by (unfold clamp; lia).
      rewrite len_cons in Hc; pose proof (len_nonneg xs) as Hx.
      assert (Hk : 0 <= nth (Z.to_nat (clamp nb j)) cnt 0 /\ nth (Z.to_nat (clamp nb j)) cnt 0 + (1 + len xs) <= two32).
      { rewrite Forall_forall in Hc; assert (In (nth (Z.to_nat (clamp nb j)) cnt 0) cnt) as I by (apply nth_In; unfold len in Hl; lia).
        specialize (Hc _ I); lia. }
      destruct (IH (i + 1) (bump (fun _ => clamp nb j) cnt v)) as [st' C].
      + exact Hn.
      + unfold len; rewrite bump_length; exact Hl.
      + unfold bump; apply Forall_forall; intros c I; apply In_nth with (d := 0) in I; destruct I as (m & Hm & <-).
        rewrite upd_nat_length in Hm; rewrite nth_upd by (unfold len in Hl; lia).
        destruct (Nat.eqb _ m); [lia|]; rewrite Forall_forall in Hc; specialize (Hc _ (nth_In cnt 0 Hm)); lia.
      + intros H; apply Hb; intros w [<-|Hw]; [exists j; exact Hj|apply H; exact Hw].
      + exists st'; eapply cu_later; [apply (put_in_bin_ok nb start size v i cnt j Hn Hl Hj); lia|exact C].
    - exists (map n_of_Z cnt); apply cu_here; unfold put_in_bin; unfold bin_of in Hu; rewrite Hu; reflexivity.
  Qed.

  Lemma zeros_ok nb (xs : list T) : len xs < two32 -> Forall (fun c => 0 <= c /\ c + len xs <= two32) (replicate nb 0).
  Proof. intros H; apply Forall_forall; intros c I; unfold replicate in I; apply repeat_spec in I; subst c; lia. Qed.
  Lemma zeros_map nb : createArray nb (n_of_Z 0 : T) = map n_of_Z (replicate nb 0).
  Proof. unfold createArray, replicate; induction (Z.to_nat nb); simpl; f_equal; assumption. Qed.

  (** all values convert: the counts of the clamped indices *)
  Lemma bins_between_counts (s : Serie T) xs nb start stop (raw : T -> Z) : repr s 1 (col xs) -> 1 <= nb < 4294967296 ->
    (forall v, In v xs -> bin_of start (n_div (n_sub stop start) (n_of_Z nb)) v = Ok (raw v)) ->
    exists cnt, bins_between s nb start stop = Ok (mk 1 (col (map n_of_Z cnt)) 3) /\ len cnt = nb /\ sumZ cnt = len xs /\
      forall i, 0 <= i < nb -> nth (Z.to_nat i) cnt 0 = count_if (fun v => clamp nb (raw v) =? i) xs.
  Proof.
    intros Hs Hn Hb; destruct (repr_col_len s xs Hs) as [Hcnt Hlt]; unfold bins_between.
    rewrite (repr_itemSize _ _ _ Hs); cbn [Z.eqb Pos.eqb negb]; destruct (Z.ltb_spec nb 1); [lia|].
    rewrite zeros_map; set (size := n_div _ _) in *; cbv zeta.
    assert (L0 : len (replicate nb 0) = nb) by (apply len_replicate; lia).
    pose proof (put_calls nb start size raw xs 0 (replicate nb 0) ltac:(lia) L0 Hb (zeros_ok nb xs Hlt)) as C.
    set (cnt := fold_left _ xs (replicate nb 0)) in *.
    rewrite (forEach_s_calls _ s xs _ _ _ Hs C); cbn [obind].
    assert (Ri : forall v, In v xs -> 0 <= clamp nb (raw v) < len (replicate nb 0)).
    { intros v Hv; rewrite L0; pose proof (bin_of_range _ _ _ _ (Hb v Hv)); unfold clamp; lia. }
    destruct (bumps_sum (fun v => clamp nb (raw v)) xs (replicate nb 0) Ri) as [Sm Ln]; fold cnt in Sm, Ln.
    assert (Lc : len cnt = nb) by (unfold len; rewrite Ln; exact L0).
    exists cnt; split; [apply serie_of_1; rewrite len_map; lia|]; split; [exact Lc|]; split.
    - rewrite Sm; replace (sumZ (replicate nb 0)) with 0; [lia|].
      unfold replicate, sumZ; clear; induction (Z.to_nat nb) as [|k IH]; cbn [repeat fold_right]; lia.
    - intros i Hi; unfold cnt; rewrite bumps_nth by (auto; lia).
      replace (nth (Z.to_nat i) (replicate nb 0) 0) with 0; [reflexivity|].
      unfold replicate; clear; generalize (Z.to_nat i); induction (Z.to_nat nb) as [|k IH]; intros [|m]; simpl; auto.
  Qed.

  Lemma bins_between_ub (s : Serie T) xs nb start stop : repr s 1 (col xs) -> 1 <= nb < 4294967296 ->
    ~ (forall v, In v xs -> exists j, bin_of start (n_div (n_sub stop start) (n_of_Z nb)) v = Ok j) ->
    bins_between s nb start stop = UB.
  Proof.
    intros Hs Hn Hnot; unfold bins_between; rewrite (repr_itemSize _ _ _ Hs); cbn [Z.eqb Pos.eqb negb]; destruct (Z.ltb_spec nb 1); [lia|].
    rewrite zeros_map; set (size := n_div _ _) in *; cbv zeta; destruct (repr_col_len s xs Hs) as [Hcnt Hlt].
    destruct (put_ub nb start size xs 0 (replicate nb 0)) as [st' C].
    - lia.
    - apply len_replicate; lia.
    - apply zeros_ok; exact Hlt.
    - exact Hnot.
    - unfold forEach_s; rewrite (repr_itemSize _ _ _ Hs), (repr_count _ _ _ Hs), len_col; cbn [Z.eqb Pos.eqb negb].
      unfold mbind; rewrite (each_reads _ _ xs) by (apply reads_scalar; exact Hs).
      apply calls_ub_mapM in C; unfold enum; rewrite C; reflexivity.
  Qed.

  Lemma bins_between_cases (s : Serie T) xs nb start stop : repr s 1 (col xs) -> 1 <= nb < 4294967296 ->
    bins_between s nb start stop = UB \/
    exists cnt, bins_between s nb start stop = Ok (mk 1 (col (map n_of_Z cnt)) 3) /\ len cnt = nb /\ sumZ cnt = len xs /\ Forall (Z.le 0) cnt.
  Proof.
    intros Hs Hn; set (size := n_div (n_sub stop start) (n_of_Z nb)).
    destruct (forallb (fun v => match bin_of start size v with Ok _ => true | _ => false end) xs) eqn:F.
    - right; set (raw := fun v => match bin_of start size v with Ok i => i | _ => 0 end).
      destruct (bins_between_counts s xs nb start stop raw Hs Hn) as (cnt & E & L & S & N).
      { intros v Hv; rewrite forallb_forall in F; specialize (F v Hv); unfold raw; fold size; destruct (bin_of start size v); congruence. }
      exists cnt; repeat (split; [assumption|]); apply Forall_forall; intros c I; apply In_nth with (d := 0) in I; destruct I as (m & Hm & <-).
      specialize (N (Z.of_nat m) ltac:(unfold len in L; lia)); rewrite Nat2Z.id in N; rewrite N; unfold count_if; apply len_nonneg.
    - left; apply (bins_between_ub s xs nb start stop Hs Hn); fold size.
      intros Hall; apply not_true_iff_false in F; apply F, forallb_forall; intros v Hv; destruct (Hall v Hv) as [j ->]; reflexivity.
  Qed.
End Bins.

Lemma r_counters : forall a, 0 <= a < two32 -> @n_add R r_num (@n_of_Z R r_num a) (@n_of_Z R r_num 1) = @n_of_Z R r_num (a + 1).
Proof. intros a _; cbn [n_add n_of_Z r_num]; rewrite plus_IZR; reflexivity. Qed.
Lemma f64_counters L : forall a, 0 <= a < two32 -> @n_add F64 (f64_num L) (@n_of_Z F64 (f64_num L) a) (@n_of_Z F64 (f64_num L) 1) = @n_of_Z F64 (f64_num L) (a + 1).
Proof. intros a Ha; cbn [n_add n_of_Z f64_num]; apply f64_add_int; try lia; unfold two32 in Ha; lia. Qed.

(** ** doubles: whenever bins returns, its items are whole numbers that add up to the count *)
Theorem C73_nothing_lost :
  forall (L : Libm) (s : Serie F64) xs nb start stop r,
  repr s 1 (col xs) -> 1 <= nb < 4294967296 ->
  @bins_between F64 (f64_num L) s nb start stop = Ok r ->
  exists cnt, r = mk 1 (col (map f64_of_Z cnt)) 3 /\ len cnt = nb /\ sumZ cnt = len xs /\ Forall (Z.le 0) cnt.
Proof.
  intros L s xs nb start stop r Hs Hn E.
  destruct (@bins_between_cases F64 (f64_num L) (f64_counters L) s xs nb start stop Hs Hn) as [U|(cnt & E' & H)]; [congruence|].
  rewrite E in E'; injection E' as E'; exists cnt; split; [exact E'|exact H].
Qed.
Print Assumptions C73_nothing_lost.

(** ** exact arithmetic *)
Lemma r_bin (start size v : R) : (0 < size)%R -> (start <= v)%R -> (v < start + IZR two32 * size)%R ->
  @bin_of R r_num start size v = Ok (Zfloor ((v - start) / size)).
Proof.
  intros Hs Hv Hu; unfold bin_of, n_to_u32; cbn [n_to_Z n_trunc n_div n_sub r_num]; rewrite Ztrunc_IZR.
  assert (Q0 : (0 <= (v - start) / size)%R) by (apply Rmult_le_pos; [lra|left; apply Rinv_0_lt_compat; exact Hs]).
  assert (Q1 : ((v - start) / size < IZR two32)%R).
  { apply Rmult_lt_reg_r with size; [exact Hs|]; unfold Rdiv; rewrite Rmult_assoc, Rinv_l by lra; lra. }
  rewrite Ztrunc_floor by exact Q0; set (q := ((v - start) / size)%R) in *.
  assert (0 <= Zfloor q) by (apply Zfloor_lub; exact Q0).
  assert (Zfloor q < two32) by (apply lt_IZR; pose proof (Zfloor_lb q); lra).
  destruct (Z.leb_spec 0 (Zfloor q)), (Z.ltb_spec (Zfloor q) two32); try lia; reflexivity.
Qed.
Lemma floor_interval (start size v : R) i : (0 < size)%R -> Zfloor ((v - start) / size) = i <-> (start + IZR i * size <= v < start + IZR (i + 1) * size)%R.
Proof.
  intros Hs; set (q := ((v - start) / size)%R); assert (E : v = (start + q * size)%R) by (unfold q; field; lra).
  rewrite plus_IZR; split.
  - intros <-; pose proof (Zfloor_lb q); pose proof (Zfloor_ub q); rewrite E; split; [apply Rplus_le_compat_l, Rmult_le_compat_r; lra|].
    apply Rplus_lt_compat_l, Rmult_lt_compat_r; lra.
  - intros [H1 H2]; rewrite E in H1, H2; apply Zfloor_imp; rewrite plus_IZR; split.
    + apply Rmult_le_reg_r with size; lra.
    + apply Rmult_lt_reg_r with size; lra.
Qed.
Lemma count_if_ext {A} (p q : A -> bool) l : (forall x, In x l -> p x = q x) -> count_if p l = count_if q l.
Proof.
  intros H; unfold count_if; f_equal; induction l as [|x l IH]; [reflexivity|]; simpl; rewrite (H x (or_introl eq_refl)), IH by (intros; apply H; right; assumption); reflexivity.
Qed.

(** membership in the i-th of nb intervals of [start, stop), the last one without an upper end *)
Definition in_bin (start stop : R) (nb i : Z) (v : R) : bool :=
  let size := ((stop - start) / IZR nb)%R in
  Rle_bool (start + IZR i * size) v && ((i =? nb - 1) || Rlt_bool v (start + IZR (i + 1) * size)).

Theorem C73_intervals_partial :
  forall (s : Serie R) xs nb start stop,
  repr s 1 (col xs) -> 1 <= nb < 4294967296 -> (start < stop)%R ->
  Forall (fun v => (start <= v)%R /\ (v < start + IZR 4294967296 * ((stop - start) / IZR nb))%R) xs ->
  @bins_between R r_num s nb start stop =
    Ok (mk 1 (col (map (fun i => IZR (count_if (in_bin start stop nb i) xs)) (iota nb))) 3).
Proof.
  intros s xs nb start stop Hs Hn Hlt Hv; set (size := ((stop - start) / IZR nb)%R).
  assert (Pn : (0 < IZR nb)%R) by (apply IZR_lt; lia).
  assert (Ps : (0 < size)%R) by (apply Rmult_lt_0_compat; [lra|apply Rinv_0_lt_compat; exact Pn]).
  rewrite Forall_forall in Hv.
  destruct (@bins_between_counts R r_num r_counters s xs nb start stop (fun v => Zfloor ((v - start) / size)) Hs Hn) as (cnt & E & L & S & N).
  { intros v Iv; apply r_bin; [exact Ps| |]; apply Hv; exact Iv. }
  rewrite E; cbn [n_of_Z r_num].
  assert (Q : cnt = map (fun i => count_if (in_bin start stop nb i) xs) (iota nb)).
  { apply nth_ext with (d := 0) (d' := 0); [rewrite map_length; pose proof (len_iota nb ltac:(lia)); unfold len in *; lia|].
    intros m Hm; assert (Hm' : 0 <= Z.of_nat m < nb) by (unfold len in L; lia).
    specialize (N (Z.of_nat m) Hm'); rewrite Nat2Z.id in N; rewrite N.
    assert (Q : nth_error (map (fun i => count_if (in_bin start stop nb i) xs) (iota nb)) m = Some (count_if (in_bin start stop nb (Z.of_nat m)) xs)).
    { rewrite nth_error_map, (iota_seqZ nb), nth_error_seqZ by lia; reflexivity. }
    rewrite (nth_error_nth _ _ 0 Q); apply count_if_ext; intros v Iv; destruct (Hv v Iv) as [Hv1 Hv2]; unfold in_bin; fold size.
    set (q := ((v - start) / size)%R); assert (Ev : v = (start + q * size)%R) by (unfold q; field; lra).
    assert (Q0 : 0 <= Zfloor q).
    { apply Zfloor_lub; apply Rmult_le_pos; [lra|left; apply Rinv_0_lt_compat; exact Ps]. }
    pose proof (proj1 (floor_interval start size v (Zfloor q) Ps) eq_refl) as [F1 F2].
    assert (Mono : forall i j, (i <= j)%Z -> (start + IZR i * size <= start + IZR j * size)%R).
    { intros i j Hij; apply Rplus_le_compat_l, Rmult_le_compat_r; [lra|apply IZR_le; exact Hij]. }
    unfold clamp; destruct (Z.eqb_spec (Z.of_nat m) (nb - 1)) as [El|Nl].
    - rewrite El, orb_true_l, andb_true_r.
      destruct (Rle_bool_spec (start + IZR (nb - 1) * size) v) as [G|G].
      + apply Z.eqb_eq; assert (nb - 1 <= Zfloor q); [|lia].
        destruct (Z_le_gt_dec (nb - 1) (Zfloor q)) as [|G']; [assumption|].
        pose proof (Mono (Zfloor q + 1) (nb - 1) ltac:(lia)); lra.
      + apply Z.eqb_neq; intros C; pose proof (Mono (nb - 1) (Zfloor q) ltac:(lia)); lra.
    - rewrite orb_false_l; destruct (Z.eqb_spec (Z.min (Zfloor q) (nb - 1)) (Z.of_nat m)) as [C|C].
      + assert (Eq : Zfloor q = Z.of_nat m) by lia; rewrite Eq in F1, F2; rewrite Rle_bool_true, Rlt_bool_true by assumption; reflexivity.
      + symmetry; apply andb_false_iff; destruct (Z_lt_ge_dec (Zfloor q) (Z.of_nat m)) as [G|G].
        * left; apply Rle_bool_false; pose proof (Mono (Zfloor q + 1) (Z.of_nat m) ltac:(lia)); lra.
        * right; apply Rlt_bool_false; pose proof (Mono (Z.of_nat m + 1) (Zfloor q) ltac:(lia)); lra. }
  rewrite Q, map_map; reflexivity.
Qed.
Print Assumptions C73_intervals_partial.

(** a value that is 2^32 bins above [start] has no bin number *)
Theorem C73_intervals_refuted :
  exists (s : Serie R) xs nb start stop,
  repr s 1 (col xs) /\ 1 <= nb < 4294967296 /\ (start < stop)%R /\ Forall (fun v => (start <= v)%R) xs /\
  @bins_between R r_num s nb start stop = UB.
Proof.
  exists (mk 1 (col [4294967296%R]) 3), [4294967296%R], 1, 0%R, 1%R.
  split; [repr_ex|]; split; [lia|]; split; [lra|]; split; [constructor; [lra|constructor]|].
  assert (B : @bin_of R r_num 0%R ((1 - 0) / 1)%R 4294967296%R = UB).
  { unfold bin_of, n_to_u32; cbn [n_to_Z n_trunc n_div n_sub r_num]; rewrite Ztrunc_IZR.
    replace ((4294967296 - 0) / ((1 - 0) / 1))%R with (IZR 4294967296) by (field; lra); rewrite Ztrunc_IZR; reflexivity. }
  apply (@bins_between_ub R r_num r_counters _ [4294967296%R] 1 0%R 1%R); [repr_ex|lia|].
  cbn [n_div n_sub n_of_Z r_num]; intros H; destruct (H _ (or_introl eq_refl)) as [j E]; rewrite B in E; discriminate E.
Qed.
Print Assumptions C73_intervals_refuted.

Theorem C73_total :
  forall (s : Serie R) xs nb,
  repr s 1 (col xs) -> 1 <= nb < 4294967296 -> Forall (fun x => Rabs x <= IZR ((2 ^ 53 - 1) * 2 ^ 971))%R xs ->
  (exists x y, In x xs /\ In y xs /\ x <> y) ->
  exists lo hi cnt, @bins R r_num s nb = Ok (mk 1 (col (map IZR cnt)) 3) /\ len cnt = nb /\ sumZ cnt = len xs /\ Forall (Z.le 0) cnt /\
    In lo xs /\ In hi xs /\ (forall x, In x xs -> (lo <= x <= hi)%R) /\
    map IZR cnt = map (fun i => IZR (count_if (in_bin lo hi nb i) xs)) (iota nb).
Proof.
  intros s xs nb Hs Hn Hb (u & v & Hu & Hv & Huv).
  assert (Hne : xs <> []) by (intros ->; destruct Hu).
  unfold bins; rewrite (@minMax_scalar R r_num s xs Hs Hne); cbn [obind fst snd].
  assert (Hg : Forall (fun _ : R => True) xs) by (apply Forall_forall; auto).
  destruct (@fold_min R r_num _ _ r_ordered xs Hg (@n_dblmax R r_num) I) as (_ & _ & Mn & I1).
  destruct (@fold_max R r_num _ _ r_ordered xs Hg (@n_lowest R r_num) I) as (_ & _ & Mx & I2).
  assert (El : @n_lowest R r_num = (- @n_dblmax R r_num)%R) by (unfold n_lowest, n_dblmax; cbn [n_of_Z r_num]; apply opp_IZR).
  assert (Ed : @n_dblmax R r_num = IZR ((2 ^ 53 - 1) * 2 ^ 971)) by reflexivity.
  rewrite <- Ed, Forall_forall in Hb.
  set (lo := fold_left (@n_min R r_num) xs (@n_dblmax R r_num)) in *; set (hi := fold_left (@n_max R r_num) xs (@n_lowest R r_num)) in *; cbv zeta in Mn, Mx.
  pose proof (Hb u Hu) as Bu; apply Rabs_le_inv in Bu.
  assert (Ilo : In lo xs).
  { destruct I1 as [I1|I1]; [|exact I1]; pose proof (Mn u Hu); replace lo with u by lra; exact Hu. }
  assert (Ihi : In hi xs).
  { destruct I2 as [I2|I2]; [|exact I2]; pose proof (Mx u Hu); replace hi with u by lra; exact Hu. }
  change (rd [lo] 0) with (Ok lo); change (rd [hi] 0) with (Ok hi); cbn [obind].
  assert (Hlt : (lo < hi)%R).
  { pose proof (Mn u Hu); pose proof (Mn v Hv); pose proof (Mx u Hu); pose proof (Mx v Hv); destruct (Rtotal_order u v) as [|[|]]; lra. }
  assert (K : Forall (fun v => (lo <= v)%R /\ (v < lo + IZR 4294967296 * ((hi - lo) / IZR nb))%R) xs).
  { apply Forall_forall; intros w Hw; split; [apply Mn; exact Hw|].
    pose proof (Mx w Hw); assert (Pn : (0 < IZR nb)%R) by (apply IZR_lt; lia).
    assert (Pq : (IZR nb < IZR 4294967296)%R) by (apply IZR_lt; lia).
    assert (Ps : (0 < (hi - lo) / IZR nb)%R) by (apply Rmult_lt_0_compat; [lra|apply Rinv_0_lt_compat; exact Pn]).
    assert (Q : (IZR nb * ((hi - lo) / IZR nb) = hi - lo)%R) by (field; lra).
    assert (Q2 : (IZR nb * ((hi - lo) / IZR nb) < IZR 4294967296 * ((hi - lo) / IZR nb))%R) by (apply Rmult_lt_compat_r; assumption).
    lra. }
  pose proof (C73_intervals_partial s xs nb lo hi Hs Hn Hlt K) as E.
  destruct (@bins_between_cases R r_num r_counters s xs nb lo hi Hs Hn) as [U|(cnt & E' & L & Sm & P)]; [rewrite U in E; discriminate E|].
  exists lo, hi, cnt; split; [exact E'|]; split; [exact L|]; split; [exact Sm|]; split; [exact P|]; split; [exact Ilo|]; split; [exact Ihi|].
  split; [intros x Hx; split; [apply Mn|apply Mx]; exact Hx|].
  rewrite E in E'; injection E' as E'; rewrite !concat_col in E'; symmetry; assumption.
Qed.
Print Assumptions C73_total.

Example C73_ex :
  let xs := [3; 1; 2]%R in
  repr (mk 1 (col xs) 3) 1 (col xs) /\ (1 < 3)%R /\ Forall (fun v => (1 <= v)%R /\ (v < 1 + IZR 4294967296 * ((3 - 1) / IZR 2))%R) xs /\
  map (fun i => count_if (in_bin 1 3 2 i) xs) (iota 2) = [1; 2].
Proof.
  cbv zeta; split; [repr_ex|]; split; [lra|]; split; [repeat (constructor; [split; lra|]); constructor|].
  unfold count_if, in_bin; cbn [filter]; change (iota 2) with [0; 1]; cbn [map].
  replace ((3 - 1) / 2)%R with 1%R by field; change (0 + 1) with 1; change (1 + 1) with 2; change (2 - 1) with 1.
  change (0 =? 1) with false; change (1 =? 1) with true; cbn [orb].
  repeat match goal with
  | |- context [Rle_bool ?a ?b] => first [rewrite (Rle_bool_true a b) by lra|rewrite (Rle_bool_false a b) by lra]
  | |- context [Rlt_bool ?a ?b] => first [rewrite (Rlt_bool_true a b) by lra|rewrite (Rlt_bool_false a b) by lra]
  end; reflexivity.
Qed.
