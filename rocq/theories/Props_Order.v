(** * C136: the order of the items does not matter for minMax, sort, quantile, outliers and bins. *)
From Coq Require Import Reals Lra Permutation Sorted.
From Flocq Require Import Core IEEE754.BinarySingleNaN.
From Verif Require Import Base Num Serie Spec BaseFacts SerieFacts Functional FunctionalFacts Utils Mathf MathFacts MinMaxFacts Stats StatsFacts.
From Verif Require Import F64 F64Facts F64Arith OrderFacts RNum Props_Functional Props_Filter Props_Sort Props_MinMax Props_Mean Props_Quantile Props_Bins.
Open Scope Z_scope.
Opaque f64_of_Z.

(** ** equal up to the sign of a zero *)
Definition same (x y : F64) : Prop := x = y \/ exists a b, x = B754_zero a /\ y = B754_zero b.
Lemma same_refl x : same x x. Proof. left; reflexivity. Qed.
Lemma same_sym x y : same x y -> same y x.
Proof. intros [->|(a & b & -> & ->)]; [left; reflexivity|right; eauto]. Qed.
Ltac same_tac := solve [left; reflexivity | right; eexists _, _; split; reflexivity].
Lemma same_add x x' y y' : same x x' -> same y y' -> same (f64_add x y) (f64_add x' y').
Proof.
  intros [->|(a & b & -> & ->)] [->|(c & d & -> & ->)]; [left; reflexivity| | |]; unfold f64_add.
  - destruct x' as [e|e| |e m ex H]; try same_tac; destruct c, d, e; same_tac.
  - destruct y' as [e|e| |e m ex H]; try same_tac; destruct a, b, e; same_tac.
  - destruct a, b, c, d; same_tac.
Qed.
Lemma same_sub x x' y y' : same x x' -> same y y' -> same (f64_sub x y) (f64_sub x' y').
Proof.
  intros [->|(a & b & -> & ->)] [->|(c & d & -> & ->)]; [left; reflexivity| | |]; unfold f64_sub.
  - destruct x' as [e|e| |e m ex H]; try same_tac; destruct c, d, e; same_tac.
  - destruct y' as [e|e| |e m ex H]; try same_tac; destruct a, b, e; same_tac.
  - destruct a, b, c, d; same_tac.
Qed.
Lemma same_mul x x' y y' : same x x' -> same y y' -> same (f64_mul x y) (f64_mul x' y').
Proof.
  intros [->|(a & b & -> & ->)] [->|(c & d & -> & ->)]; [left; reflexivity| | |]; unfold f64_mul.
  - destruct x' as [e|e| |e m ex H]; same_tac.
  - destruct y' as [e|e| |e m ex H]; same_tac.
  - same_tac.
Qed.
Lemma same_ltb x x' y y' : same x x' -> same y y' -> Bltb x y = Bltb x' y'.
Proof.
  intros [->|(a & b & -> & ->)] [->|(c & d & -> & ->)]; [reflexivity| | |].
  - destruct x' as [e|e| |[] m ex H]; reflexivity.
  - destruct y' as [e|e| |[] m ex H]; reflexivity.
  - reflexivity.
Qed.
Lemma same_leb x x' y y' : same x x' -> same y y' -> Bleb x y = Bleb x' y'.
Proof.
  intros [->|(a & b & -> & ->)] [->|(c & d & -> & ->)]; [reflexivity| | |].
  - destruct x' as [e|e| |[] m ex H]; reflexivity.
  - destruct y' as [e|e| |[] m ex H]; reflexivity.
  - reflexivity.
Qed.
(** the code compares such values as equal *)
Lemma same_eqb x y : not_nan x -> not_nan y -> same x y <-> Beqb x y = true.
Proof.
  intros Hx Hy; split.
  - intros [->|(a & b & -> & ->)]; [apply Beqb_ext; auto|reflexivity].
  - intros E; destruct x as [a|a| |a m e H], y as [b|b| |b m' e' H']; try discriminate; try same_tac;
      try (destruct a, b; try discriminate; left; reflexivity); try (destruct a; discriminate); try (destruct b; discriminate).
    left; apply Beqb_ext in E; auto; cbn [ext] in E; apply B2R_inj; [reflexivity|reflexivity|exact E].
Qed.

Lemma Permutation_filter' {A} (p : A -> bool) l l' : Permutation l l' -> Permutation (filter p l) (filter p l').
Proof.
  induction 1 as [|x l l' H IH|x y l|l l' l'' H1 IH1 H2 IH2]; cbn [filter].
  - constructor.
  - destruct (p x); [constructor; exact IH|exact IH].
  - destruct (p x), (p y); try reflexivity; apply perm_swap.
  - etransitivity; eassumption.
Qed.

(** the same outcome, with values in a relation *)
Definition same_outcome {A} (P : A -> A -> Prop) (x y : outcome A) : Prop :=
  match x, y with
  | Ok a, Ok b => P a b
  | Throw e, Throw e' => e = e'
  | UB, UB => True
  | _, _ => False
  end.

(** ** sort *)
Lemma sorted_same L (l l' ss ss' : list F64) (sorter : Sorter) : conforms sorter -> Permutation l l' -> Forall not_nan l ->
  ss = sorter F64 (@n_ltb F64 (f64_num L)) l -> ss' = sorter F64 (@n_ltb F64 (f64_num L)) l' ->
  Forall2 same ss ss' /\ swo_on (@n_ltb F64 (f64_num L)) l = true /\ swo_on (@n_ltb F64 (f64_num L)) l' = true /\ length ss = length l /\ length ss' = length l'.
Proof.
  intros Hc P Hn -> ->.
  pose proof (keyed_swo (NT := f64_num L) not_nan ext (f64_ordered L) l Hn) as Hw.
  pose proof (swo_perm _ l l' P Hw) as Hw'.
  destruct (Hc F64 _ l Hw) as [P1 S1]; destruct (Hc F64 _ l' Hw') as [P2 S2].
  set (a := sorter F64 (@n_ltb F64 (f64_num L)) l) in *; set (b := sorter F64 (@n_ltb F64 (f64_num L)) l') in *.
  assert (Pab : Permutation a b) by (rewrite <- P1, <- P2; exact P).
  assert (Ha : Forall not_nan a) by (rewrite <- P1; exact Hn).
  assert (Hb : Forall not_nan b) by (rewrite <- P2, <- P; exact Hn).
  split; [|repeat (split; [assumption || (symmetry; apply Permutation_length; assumption)|]); symmetry; apply Permutation_length; assumption].
  pose proof (sorted_unique _ a b (swo_perm _ l a P1 Hw) Pab S1 S2) as U; clear - U Ha Hb.
  induction U as [|x y a b [H1 H2] U IH]; constructor; apply Forall_cons_iff in Ha as [Hx Ha]; apply Forall_cons_iff in Hb as [Hy Hb]; [|auto].
  apply same_eqb; auto; apply Beqb_ext; auto; simpl in H1, H2.
  destruct (Rtotal_order (ext x) (ext y)) as [Hl|[He|Hl]]; [|exact He|].
  - apply (Bltb_ext x y) in Hl; auto; congruence.
  - apply (Bltb_ext y x) in Hl; auto; congruence.
Qed.

Theorem C136_sort :
  forall (L : Libm) (sorter : Sorter) (s s' : Serie F64) xs xs',
  conforms sorter -> repr s 1 (col xs) -> repr s' 1 (col xs') -> Permutation xs xs' -> Forall not_nan xs ->
  exists ys ys', sort_default (H := f64_num L) sorter s = Ok (mk 1 (col ys) 3) /\ sort_default (H := f64_num L) sorter s' = Ok (mk 1 (col ys') 3) /\
    Forall2 same ys ys'.
Proof.
  intros L sorter s s' xs xs' Hc Hs Hs' P Hn.
  destruct (sorted_same L xs xs' _ _ sorter Hc P Hn eq_refl eq_refl) as (F & W & W' & L1 & L2).
  eexists _, _; split; [apply (@sort_scalar F64 (f64_num L)); [exact Hs|exact W|unfold len; rewrite L1; reflexivity]|].
  split; [apply (@sort_scalar F64 (f64_num L)); [exact Hs'|exact W'|unfold len; rewrite L2; reflexivity]|exact F].
Qed.
Print Assumptions C136_sort.

(** ** quantile *)
Lemma rd_same (l l' : list F64) i : Forall2 same l l' -> same_outcome same (rd l i) (rd l' i).
Proof.
  intros F; unfold rd; assert (El : len l = len l') by (unfold len; f_equal; clear - F; induction F; cbn [length]; congruence).
  rewrite <- El; destruct ((0 <=? i) && (i <? len l)); [clear El|exact I].
  generalize (Z.to_nat i); induction F as [|x y l l' H F IH]; intros [|n]; cbn [nth_error]; try exact I; [exact H|apply IH].
Qed.
Theorem C136_quantile :
  forall (L : Libm) (sorter : Sorter) (s s' : Serie F64) xs xs' q,
  conforms sorter -> repr s 1 (col xs) -> repr s' 1 (col xs') -> Permutation xs xs' -> Forall not_nan xs ->
  same_outcome same (@quantile F64 (f64_num L) sorter s q) (@quantile F64 (f64_num L) sorter s' q).
Proof.
  intros L sorter s s' xs xs' q Hc Hs Hs' P Hn; unfold quantile.
  rewrite (isValid_repr _ _ _ Hs), (isValid_repr _ _ _ Hs'), (repr_itemSize _ _ _ Hs), (repr_itemSize _ _ _ Hs').
  cbn [Z.ltb Z.compare negb Z.eqb Pos.eqb].
  match goal with |- context [if ?c then Throw InvalidArgument else _] => destruct c; [reflexivity|] end.
  destruct (C136_sort L sorter s s' xs xs' Hc Hs Hs' P Hn) as (ys & ys' & -> & -> & F); cbn [obind].
  unfold asArray; cbn [mk s_]; rewrite !concat_col.
  assert (El : len ys = len ys') by (unfold len; f_equal; clear - F; induction F; cbn [length]; congruence).
  rewrite <- El; cbv zeta; set (pos := n_mul _ q).
  destruct (n_to_u32 (n_add (n_floor pos) (n_of_Z 1))) as [next| |]; cbn [obind]; try exact I; [|reflexivity].
  destruct (n_to_u32 (n_floor pos)) as [here| |]; cbn [obind]; try exact I; [|reflexivity].
  destruct (next <? len ys); [|apply rd_same; exact F].
  pose proof (rd_same ys ys' here F) as R1; pose proof (rd_same ys ys' next F) as R2.
  destruct (rd ys here) as [a| |], (rd ys' here) as [a'| |]; cbn [same_outcome] in R1; try contradiction; cbn [obind]; try exact R1.
  destruct (rd ys next) as [b| |], (rd ys' next) as [b'| |]; cbn [same_outcome] in R2; try contradiction; cbn [obind]; try exact R2.
  cbn [same_outcome n_add n_sub n_mul f64_num]; apply same_add; [exact R1|]; apply same_mul; [apply same_refl|]; apply same_sub; assumption.
Qed.
Print Assumptions C136_quantile.

(** ** outliers: the same values, marked in the same way *)
Lemma fences_same L sorter (s s' : Serie F64) xs xs' m :
  conforms sorter -> repr s 1 (col xs) -> repr s' 1 (col xs') -> Permutation xs xs' -> Forall not_nan xs ->
  same_outcome (fun a b => same (fst a) (fst b) /\ same (snd a) (snd b)) (@fences F64 (f64_num L) sorter s m) (@fences F64 (f64_num L) sorter s' m).
Proof.
  intros Hc Hs Hs' P Hn; unfold fences, q25, q75.
  pose proof (C136_quantile L sorter s s' xs xs' (n_ratio (H := f64_num L) 1 4) Hc Hs Hs' P Hn) as A.
  pose proof (C136_quantile L sorter s s' xs xs' (n_ratio (H := f64_num L) 3 4) Hc Hs Hs' P Hn) as B.
  destruct (@quantile F64 (f64_num L) sorter s (n_ratio 1 4)) as [a| |], (@quantile F64 (f64_num L) sorter s' (n_ratio 1 4)) as [a'| |]; cbn [same_outcome] in A; try contradiction; cbn [obind]; try exact A.
  destruct (@quantile F64 (f64_num L) sorter s (n_ratio 3 4)) as [b| |], (@quantile F64 (f64_num L) sorter s' (n_ratio 3 4)) as [b'| |]; cbn [same_outcome] in B; try contradiction; cbn [obind]; try exact B.
  cbv zeta; cbn [same_outcome fst snd n_add n_sub n_mul f64_num]; split; [apply same_sub|apply same_add]; try assumption; apply same_mul; try apply same_refl; apply same_sub; assumption.
Qed.
Theorem C136_outliers :
  forall (L : Libm) (sorter : Sorter) (s s' : Serie F64) xs xs' m,
  conforms sorter -> repr s 1 (col xs) -> repr s' 1 (col xs') -> Permutation xs xs' -> Forall not_nan xs ->
  same_outcome (fun r r' => exists ys ys', r = mk 1 (col ys) 3 /\ r' = mk 1 (col ys') 3 /\ Permutation ys ys')
    (@outliers F64 (f64_num L) sorter s m) (@outliers F64 (f64_num L) sorter s' m) /\
  same_outcome (fun r r' => exists ys ys', r = mk 1 (col ys) 3 /\ r' = mk 1 (col ys') 3 /\ Permutation ys ys')
    (@notOutliers F64 (f64_num L) sorter s m) (@notOutliers F64 (f64_num L) sorter s' m) /\
  same_outcome (fun r r' => exists mark : F64 -> bool, r = mk 1 (col (map (fun x => if mark x then #1 else #0) xs)) 3 /\ r' = mk 1 (col (map (fun x => if mark x then #1 else #0) xs')) 3)
    (@isOutliers F64 (f64_num L) sorter s m) (@isOutliers F64 (f64_num L) sorter s' m).
Proof.
  intros L sorter s s' xs xs' m Hc Hs Hs' P Hn.
  pose proof (fences_same L sorter s s' xs xs' m Hc Hs Hs' P Hn) as F.
  destruct (@fences F64 (f64_num L) sorter s m) as [[lo hi]|e|] eqn:E, (@fences F64 (f64_num L) sorter s' m) as [[lo' hi']|e'|] eqn:E'; cbn [same_outcome fst snd] in F; try contradiction.
  - destruct F as [F1 F2].
    destruct (C72_mask_and_items F64 (f64_num L) sorter s xs m lo hi Hs E) as (A & B & C).
    destruct (C72_mask_and_items F64 (f64_num L) sorter s' xs' m lo' hi' Hs' E') as (A' & B' & C').
    rewrite A, B, C, A', B', C'; cbn [same_outcome n_ltb n_leb n_of_Z f64_num].
    assert (Q : forall x, Bltb x lo' || Bltb hi' x = Bltb x lo || Bltb hi x).
    { intros x; rewrite (same_ltb x x lo lo'), (same_ltb hi hi' x x) by (assumption || apply same_refl); reflexivity. }
    assert (Q' : forall x, Bleb lo' x && Bleb x hi' = Bleb lo x && Bleb x hi).
    { intros x; rewrite (same_leb x x hi hi'), (same_leb lo lo' x x) by (assumption || apply same_refl); reflexivity. }
    split; [|split].
    + eexists _, _; split; [reflexivity|]; split; [reflexivity|]; rewrite (filter_ext _ _ Q); apply Permutation_filter'; exact P.
    + eexists _, _; split; [reflexivity|]; split; [reflexivity|]; rewrite (filter_ext _ _ Q'); apply Permutation_filter'; exact P.
    + exists (fun x => Bltb x lo || Bltb hi x); split; [reflexivity|]; f_equal; f_equal; apply map_ext; intros x; rewrite Q; reflexivity.
  - unfold outliers, notOutliers, isOutliers; rewrite E, E'; cbn [obind]; auto.
  - unfold outliers, notOutliers, isOutliers; rewrite E, E'; cbn [obind]; auto.
Qed.
Print Assumptions C136_outliers.

(** ** minMax *)
Lemma both_le (a b : F64) : not_nan a -> not_nan b -> Bleb a b = true -> Bleb b a = true -> same a b.
Proof. intros Ha Hb H1 H2; apply same_eqb; auto; apply Bleb_ext in H1, H2; auto; apply Beqb_ext; auto; lra. Qed.
Lemma tight_same L mn mx mn' mx' (l l' : list F64) : (forall x, In x l <-> In x l') -> (forall x, In x l -> not_nan x) ->
  @tight F64 (f64_num L) mn mx l -> @tight F64 (f64_num L) mn' mx' l' -> same mn mn' /\ same mx mx'.
Proof.
  intros P N (I1 & I2 & H) (I1' & I2' & H'); cbn [n_leb f64_num] in H, H'.
  split; apply both_le; try (apply N; assumption); try (apply N, P; assumption); try (apply H; apply P; assumption); apply H'; apply P; assumption.
Qed.
Theorem C136_minMax :
  forall (L : Libm) (s s' : Serie F64) xs xs',
  repr s 1 (col xs) -> repr s' 1 (col xs') -> Permutation xs xs' -> xs <> [] -> Forall (fun x => is_finite x = true) xs ->
  exists mn mx mn' mx', @minMax F64 (f64_num L) s = Ok ([mn], [mx]) /\ @minMax F64 (f64_num L) s' = Ok ([mn'], [mx']) /\ same mn mn' /\ same mx mx'.
Proof.
  intros L s s' xs xs' Hs Hs' P Hne Hf.
  assert (Hne' : xs' <> []) by (intros ->; apply Permutation_sym, Permutation_nil in P; congruence).
  assert (Hf' : Forall (fun x => is_finite x = true) xs') by (rewrite <- P; exact Hf).
  destruct (C62_scalar L s xs Hs Hne Hf) as (mn & mx & E & T); destruct (C62_scalar L s' xs' Hs' Hne' Hf') as (mn' & mx' & E' & T').
  exists mn, mx, mn', mx'; split; [exact E|]; split; [exact E'|].
  apply (tight_same L mn mx mn' mx' xs xs'); [intros x; split; apply Permutation_in; [exact P|symmetry; exact P]| |exact T|exact T'].
  rewrite Forall_forall in Hf; intros x Hx; apply nan_finite, Hf, Hx.
Qed.
Print Assumptions C136_minMax.
Theorem C136_minMax_arrays :
  forall (L : Libm) (s s' : Serie F64) k rows rows',
  repr s k rows -> repr s' k rows' -> 2 <= k -> Permutation rows rows' -> rows <> [] -> Forall (Forall not_nan) rows ->
  exists mn mx mn' mx', @minMax F64 (f64_num L) s = Ok (mn, mx) /\ @minMax F64 (f64_num L) s' = Ok (mn', mx') /\
    len mn = k /\ len mx = k /\ len mn' = k /\ len mx' = k /\
    forall c, Z.of_nat c < k -> same (nth c mn #0) (nth c mn' #0) /\ same (nth c mx #0) (nth c mx' #0).
Proof.
  intros L s s' k rows rows' Hs Hs' Hk P Hne Hf.
  assert (Hne' : rows' <> []) by (intros ->; apply Permutation_sym, Permutation_nil in P; congruence).
  assert (Hf' : Forall (Forall not_nan) rows') by (rewrite <- P; exact Hf).
  destruct (C62_vector L s k rows Hs Hk Hne Hf) as (mn & mx & E & L1 & L2 & T); destruct (C62_vector L s' k rows' Hs' Hk Hne' Hf') as (mn' & mx' & E' & L1' & L2' & T').
  exists mn, mx, mn', mx'; repeat (split; [assumption|]); intros c Hc.
  apply (tight_same L _ _ _ _ _ _) with (3 := T c Hc) (4 := T' c Hc).
  - pose proof (Permutation_map (fun r => nth c r #0) P) as Pm; intros x; split; apply Permutation_in; [exact Pm|symmetry; exact Pm].
  - intros x Hx; apply in_map_iff in Hx; destruct Hx as (r & <- & Hr).
    pose proof (repr_rows _ _ _ Hs) as Hz; unfold rows_of_size in Hz; rewrite Forall_forall in Hz, Hf; specialize (Hf r Hr); rewrite Forall_forall in Hf.
    apply Hf, nth_In; specialize (Hz r Hr); unfold len in *; lia.
Qed.
Print Assumptions C136_minMax_arrays.

(** ** bins *)
Lemma count_if_perm {A} (p : A -> bool) l l' : Permutation l l' -> count_if p l = count_if p l'.
Proof. intros P; unfold count_if, len; f_equal; apply Permutation_length, Permutation_filter', P. Qed.
Section Bins.
  Context {T : Type} {NT : Num T}.
  Hypothesis counters : forall a, 0 <= a < two32 -> n_add (n_of_Z a) (n_of_Z 1) = n_of_Z (a + 1).
  Lemma bins_between_same (s s' : Serie T) xs xs' nb lo hi lo' hi' : repr s 1 (col xs) -> repr s' 1 (col xs') -> 1 <= nb < 4294967296 -> Permutation xs xs' ->
    (forall v, In v xs -> bin_of lo (n_div (n_sub hi lo) (n_of_Z nb)) v = bin_of lo' (n_div (n_sub hi' lo') (n_of_Z nb)) v) ->
    bins_between s nb lo hi = bins_between s' nb lo' hi'.
  Proof.
    intros Hs Hs' Hn P Hb; set (size := n_div (n_sub hi lo) (n_of_Z nb)) in *; set (size' := n_div (n_sub hi' lo') (n_of_Z nb)) in *.
    assert (P' := Permutation_sym P).
    destruct (forallb (fun v => match bin_of lo size v with Ok _ => true | _ => false end) xs) eqn:F.
    - rewrite forallb_forall in F; set (raw := fun v => match bin_of lo size v with Ok i => i | _ => 0 end).
      assert (R : forall v, In v xs -> bin_of lo size v = Ok (raw v)) by (intros v Hv; specialize (F v Hv); unfold raw; destruct (bin_of lo size v); congruence).
      destruct (bins_between_counts counters s xs nb lo hi raw Hs Hn R) as (cnt & E & Lc & _ & N).
      destruct (bins_between_counts counters s' xs' nb lo' hi' raw Hs' Hn) as (cnt' & E' & Lc' & _ & N').
      { intros v Hv; apply (Permutation_in _ P') in Hv; fold size'; rewrite <- (Hb v Hv); apply R; exact Hv. }
      rewrite E, E'; do 4 f_equal; apply nth_ext with (d := 0) (d' := 0); [unfold len in *; lia|].
      intros m Hm; assert (Hm' : 0 <= Z.of_nat m < nb) by (unfold len in Lc; lia).
      specialize (N _ Hm'); specialize (N' _ Hm'); rewrite Nat2Z.id in N, N'; rewrite N, N'; apply count_if_perm; exact P.
    - assert (X : exists v, In v xs /\ forall j, bin_of lo size v <> Ok j).
      { clear - F; induction xs as [|v xs IH]; [discriminate F|]; cbn [forallb] in F.
        destruct (bin_of lo size v) as [i| |] eqn:E; cbn [andb] in F.
        - destruct (IH F) as (w & Iw & Hw); exists w; split; [right; exact Iw|exact Hw].
        - exists v; split; [left; reflexivity|]; intros j; congruence.
        - exists v; split; [left; reflexivity|]; intros j; congruence. }
      destruct X as (v & Iv & Hv).
      rewrite (bins_between_ub counters s xs nb lo hi Hs Hn), (bins_between_ub counters s' xs' nb lo' hi' Hs' Hn); [reflexivity| |].
      + fold size'; intros H; destruct (H v (Permutation_in _ P Iv)) as [j E]; rewrite <- (Hb v Iv) in E; exact (Hv j E).
      + fold size; intros H; destruct (H v Iv) as [j E]; exact (Hv j E).
  Qed.
End Bins.
Theorem C136_bins_between :
  forall (L : Libm) (s s' : Serie F64) xs xs' nb start stop,
  repr s 1 (col xs) -> repr s' 1 (col xs') -> Permutation xs xs' -> 1 <= nb < 4294967296 ->
  @bins_between F64 (f64_num L) s nb start stop = @bins_between F64 (f64_num L) s' nb start stop.
Proof. intros L s s' xs xs' nb start stop Hs Hs' P Hn; apply (bins_between_same (f64_counters L) s s' xs xs'); auto. Qed.
Print Assumptions C136_bins_between.

Lemma same_div_l x x' y : same x x' -> same (f64_div x y) (f64_div x' y).
Proof. intros [->|(a & b & -> & ->)]; [left; reflexivity|]; unfold f64_div; destruct y as [e|e| |e m ex H]; same_tac. Qed.
Lemma index_same L d d' size size' : same d d' -> same size size' ->
  @n_to_u32 F64 (f64_num L) (Bnearbyint mode_ZR (f64_div d size)) = @n_to_u32 F64 (f64_num L) (Bnearbyint mode_ZR (f64_div d' size')).
Proof.
  intros Hd [->|(a & b & -> & ->)].
  - destruct (same_div_l d d' size' Hd) as [->|(a & b & -> & ->)]; [reflexivity|]; destruct a, b; reflexivity.
  - assert (U : forall (x : F64) c, @n_to_u32 F64 (f64_num L) (Bnearbyint mode_ZR (f64_div x (B754_zero c))) = UB) by (intros [e|e| |e m ex H] c; reflexivity).
    rewrite !U; reflexivity.
Qed.
Theorem C136_bins :
  forall (L : Libm) (s s' : Serie F64) xs xs' nb,
  repr s 1 (col xs) -> repr s' 1 (col xs') -> Permutation xs xs' -> xs <> [] -> Forall (fun x => is_finite x = true) xs -> 1 <= nb < 4294967296 ->
  @bins F64 (f64_num L) s nb = @bins F64 (f64_num L) s' nb.
Proof.
  intros L s s' xs xs' nb Hs Hs' P Hne Hf Hn.
  destruct (C136_minMax L s s' _ xs' Hs Hs' P Hne Hf) as (mn & mx & mn' & mx' & E & E' & M1 & M2).
  unfold bins; rewrite E, E'; cbn [obind fst snd]; change (rd [mn] 0) with (Ok mn); change (rd [mx] 0) with (Ok mx); change (rd [mn'] 0) with (Ok mn'); change (rd [mx'] 0) with (Ok mx'); cbn [obind].
  apply (bins_between_same (f64_counters L) s s' _ xs' nb mn mx mn' mx' Hs Hs' Hn P).
  intros v _; unfold bin_of; cbn [n_sub n_div n_trunc n_of_Z f64_num]; apply index_same; [apply same_sub; [apply same_refl|exact M1]|apply same_div_l, same_sub; assumption].
Qed.
Print Assumptions C136_bins.

(** ** sums: in exact arithmetic only *)
Lemma sumR_perm l l' : Permutation l l' -> sumR l = sumR l'.
Proof. unfold sumR; induction 1; cbn [fold_right]; lra. Qed.
Lemma map2_combine {A B C} (f : A -> B -> C) l l' : map2 f l l' = map (fun p => f (fst p) (snd p)) (combine l l').
Proof. revert l'; induction l as [|x l IH]; intros [|y l']; cbn [map2 combine map]; try reflexivity; f_equal; apply IH. Qed.
Theorem C136_exact_sums :
  forall (x x' y y' : Serie R) xs xs' ys ys',
  repr x 1 (col xs) -> repr x' 1 (col xs') -> repr y 1 (col ys) -> repr y' 1 (col ys') ->
  xs <> [] -> len xs = len ys -> len xs' = len ys' -> Permutation (combine xs ys) (combine xs' ys') ->
  (exists m, @mean R r_num x = Ok (Number m) /\ @mean R r_num x' = Ok (Number m)) /\
  (exists c, @covariance R r_num x y = Ok c /\ @covariance R r_num x' y' = Ok c).
Proof.
  intros x x' y y' xs xs' ys ys' Hx Hx' Hy Hy' Hne Ly Ly' P.
  assert (Fst : forall a b : list R, len a = len b -> map fst (combine a b) = a /\ map snd (combine a b) = b).
  { intros a b E; assert (E' : length a = length b) by (unfold len in E; lia); clear E; revert b E'.
    induction a as [|u a IH]; intros [|v b] E; try discriminate E; cbn [combine map fst snd]; [split; reflexivity|].
    injection E as E; destruct (IH b E) as [-> ->]; split; reflexivity. }
  destruct (Fst xs ys Ly) as [F1 F2], (Fst xs' ys' Ly') as [F1' F2'].
  pose proof (Permutation_map fst P) as Px; pose proof (Permutation_map snd P) as Py; rewrite F1, F1' in Px; rewrite F2, F2' in Py.
  assert (Hne' : xs' <> []) by (intros ->; apply Permutation_sym, Permutation_nil in Px; congruence).
  assert (Lx : len xs = len xs') by (unfold len; rewrite (Permutation_length Px); reflexivity).
  assert (M : forall t zs, repr t 1 (col zs) -> @mean R r_num t = Ok (Number (sumR zs / IZR (len zs))%R)).
  { intros t zs Ht; rewrite (@mean_scalar R r_num t zs Ht); cbn [n_div n_add n_of_Z r_num]; rewrite fold_left_sum; do 3 f_equal; lra. }
  split.
  - eexists; split; [apply M; exact Hx|]; rewrite (M x' xs' Hx'), (sumR_perm xs xs' Px), Lx; reflexivity.
  - exists (covR xs ys); split; [apply covariance_covR; assumption|]; rewrite (covariance_covR x' y' xs' ys' Hx' Hy' Hne' Ly'); f_equal.
    assert (Lyy : len ys = len ys') by lia.
    unfold covR; rewrite <- Lx; f_equal; rewrite !map2_combine; apply sumR_perm.
    assert (Ea : avg xs' = avg xs) by (unfold avg; rewrite Lx, (sumR_perm xs xs' Px); reflexivity).
    assert (Eb : avg ys' = avg ys) by (unfold avg; rewrite Lyy, (sumR_perm ys ys' Py); reflexivity).
    rewrite Ea, Eb; apply Permutation_map; symmetry; exact P.
Qed.
Print Assumptions C136_exact_sums.

(** 2^53 + 1 - 2^53 is 0 or 1 *)
Theorem C136_mean_refuted :
  exists (s s' : Serie F64) xs xs',
  repr s 1 (col xs) /\ repr s' 1 (col xs') /\ Permutation xs xs' /\ Forall (fun x => is_finite x = true) xs /\
  forall L, exists m m', @mean F64 (f64_num L) s = Ok (Number m) /\ @mean F64 (f64_num L) s' = Ok (Number m') /\ ~ same m m' /\ B2R m = 0%R.
Proof.
  pose (b := f64_of_Z (2 ^ 53)); pose (c := f64_of_Z (- 2 ^ 53)).
  exists (mk 1 (col [b; #1; c]) 3), (mk 1 (col [b; c; #1]) 3), [b; #1; c], [b; c; #1].
  split; [repr_ex|]; split; [repr_ex|]; split; [apply perm_skip, perm_swap|]; split; [repeat constructor|].
  intros L; eexists _, _; split; [apply (@mean_scalar F64 (f64_num L) _ [b; #1; c]); repr_ex|]; split; [apply (@mean_scalar F64 (f64_num L) _ [b; c; #1]); repr_ex|].
  split.
  - intros H; assert (E : Beqb (@n_div F64 (f64_num L) (fold_left (@n_add F64 (f64_num L)) [b; #1; c] (@n_of_Z F64 (f64_num L) 0)) (@n_of_Z F64 (f64_num L) (len [b; #1; c])))
      (@n_div F64 (f64_num L) (fold_left (@n_add F64 (f64_num L)) [b; c; #1] (@n_of_Z F64 (f64_num L) 0)) (@n_of_Z F64 (f64_num L) (len [b; c; #1]))) = true).
    { apply same_eqb; [vm_compute; reflexivity|vm_compute; reflexivity|exact H]. }
    vm_compute in E; discriminate E.
  - rewrite <- SF2R_B2SF; match goal with |- SF2R _ ?x = _ => replace x with (SpecFloat.S754_zero false) by (vm_compute; reflexivity) end; reflexivity.
Qed.
Print Assumptions C136_mean_refuted.

Example C136_ex :
  let s := mk 1 (col [#3; #1; #2]) 3 in let s' := mk 1 (col [#1; #2; #3]) 3 in
  repr s 1 (col [#3; #1; #2]) /\ repr s' 1 (col [#1; #2; #3]) /\ Permutation [#3; #1; #2] [#1; #2; #3] /\ conforms insertion_sorter /\
  Forall not_nan [#3; #1; #2] /\ Forall (fun x => is_finite x = true) [#3; #1; #2] /\
  match @bins F64 F64N s 2, @bins F64 F64N s' 2 with Ok r, Ok r' => map show (s_ r) = map show (s_ r') /\ map show (s_ r) = map show [#1; #2] | _, _ => False end /\
  same (B754_zero true) (B754_zero false) /\ ~ same #1 #2.
Proof.
  cbv zeta; split; [repr_ex|]; split; [repr_ex|]; split; [exact (Permutation_cons_append [#1; #2] #3)|].
  split; [exact insertion_sorter_conforms|]; split; [repeat constructor|]; split; [repeat constructor|].
  split; [vm_compute; split; reflexivity|]; split; [right; eexists _, _; split; reflexivity|].
  intros H; apply same_eqb in H; [vm_compute in H; discriminate H|reflexivity|reflexivity].
Qed.
