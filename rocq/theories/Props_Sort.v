(** * C43 - C45: sort; C100: print; C26: dimensions. *)
From Verif Require Import Base Num Serie Spec BaseFacts SerieFacts Functional FunctionalFacts Utils UtilsFacts
  F64 F64Facts OrderFacts Props_Functional Props_Filter Props_Fold Props_Merge Props_Partition.
From Coq Require Import Permutation Sorted Reals Lra.
From Flocq Require Import IEEE754.BinarySingleNaN.
From Coq Require String.
Import String.StringSyntax.
Open Scope Z_scope.

Ltac Zify.zify_post_hook ::= Z.div_mod_to_equations.
Opaque f64_of_Z.
#[local] Existing Instance F64N.

Section Sort.
  Context {T : Type} {NT : Num T} (sorter : Sorter).

  Lemma sort_scalar (s : Serie T) xs comp : repr s 1 (col xs) -> swo_on n_ltb xs = true ->
    len (sorter T n_ltb xs) = len xs ->
    sort_by sorter comp s = Ok (mk 1 (col (sorter T n_ltb xs)) 3).
  Proof.
    intros Hs Hw Hl; destruct (repr_col_len s xs Hs) as [Hc Hb]; unfold sort_by, isValid.
    rewrite (repr_itemSize_ _ _ _ Hs), (repr_itemSize _ _ _ Hs), Hc; cbn [negb Z.ltb Z.compare Z.eqb Pos.eqb].
    assert (E : mapO (get_double s) (iota (len xs)) = Ok xs).
    { rewrite (mapO_ext _ (rd xs)); [apply mapO_rd_iota|].
      intros i Hi; apply in_iota in Hi; apply (get_double_repr s xs); [exact Hs|lia]. }
    rewrite E; cbn [obind]; unfold std_sort; rewrite Hw; cbn [obind].
    pose proof (serie_of_rows 1 (col (sorter T n_ltb xs))) as C; rewrite concat_col in C.
    apply C; [lia|apply rows_col|rewrite len_col; lia].
  Qed.

  Lemma sort_arrays (s : Serie T) k rows comp : repr s k rows -> 2 <= k -> swo_on comp rows = true ->
    Permutation rows (sorter (list T) comp rows) ->
    sort_by sorter comp s = Ok (mk k (sorter (list T) comp rows) 3).
  Proof.
    intros Hs Hk Hw P; unfold sort_by, isValid.
    rewrite (repr_itemSize_ _ _ _ Hs), (repr_itemSize _ _ _ Hs), (repr_count _ _ _ Hs).
    destruct (Z.ltb_spec 0 k); [|lia]; destruct (Z.eqb_spec k 1); [lia|]; cbn [negb].
    assert (E : mapO (get_array s) (iota (len rows)) = Ok rows).
    { rewrite (mapO_ext _ (rd rows)); [apply mapO_rd_iota|].
      intros i Hi; apply in_iota in Hi; apply (get_array_repr s k rows); [exact Hs|lia]. }
    rewrite E; cbn [obind]; unfold std_sort; rewrite Hw; cbn [obind].
    assert (HB : 0 <= k < 2147483648) by apply Hs; rewrite s32_small by lia.
    assert (El : len (sorter (list T) comp rows) = len rows).
    { unfold len; f_equal; symmetry; apply Permutation_length, P. }
    apply serie_of_rows; [lia| |rewrite El; apply Hs].
    unfold rows_of_size; rewrite Forall_forall; intros r Hr.
    pose proof (repr_rows _ _ _ Hs) as Hz; unfold rows_of_size in Hz; rewrite Forall_forall in Hz; apply Hz.
    eapply Permutation_in; [symmetry; exact P|exact Hr].
  Qed.
End Sort.

(** ** C43 *)
Theorem C43_sort_scalar :
  forall (L : Libm) (sorter : Sorter) (s : Serie F64) xs,
  conforms sorter -> repr s 1 (col xs) -> Forall not_nan xs ->
  exists ys, sort_default (H := f64_num L) sorter s = Ok (mk 1 (col ys) 3) /\
    Permutation xs ys /\ StronglySorted (fun x y => Bleb x y = true) ys /\
    exists zs, sort_default (H := f64_num L) sorter (mk 1 (col ys) 3) = Ok (mk 1 (col zs) 3) /\
      Forall2 (fun y z => Beqb y z = true) ys zs.
Proof.
  intros L sorter s xs Hc Hs Hn.
  pose proof (keyed_swo (NT := f64_num L) not_nan ext (f64_ordered L) xs Hn) as Hw.
  destruct (Hc F64 _ xs Hw) as [P Hso]; set (ys := sorter F64 (@n_ltb _ (f64_num L)) xs) in *.
  destruct (repr_col_len s xs Hs) as [Hcnt Hb].
  assert (El : len ys = len xs) by (unfold len; f_equal; symmetry; apply Permutation_length, P).
  assert (Hny : Forall not_nan ys).
  { apply Forall_forall; intros y Hy; rewrite Forall_forall in Hn; apply Hn; eapply Permutation_in; [symmetry; exact P|exact Hy]. }
  assert (Hs2 : repr (mk 1 (col ys) 3) 1 (col ys)) by (apply repr_col_mk; lia).
  pose proof (swo_perm _ xs ys P Hw) as Hwy.
  destruct (Hc F64 _ ys Hwy) as [P2 Hso2]; set (zs := sorter F64 (@n_ltb _ (f64_num L)) ys) in *.
  exists ys; split; [apply (sort_scalar (NT := f64_num L)); auto|]; split; [exact P|]; split.
  - clear -Hso Hny; unfold sorted_by in Hso; induction Hso as [|y ys Hso IH Hall]; constructor;
      inversion Hny as [|? ? Hy Hny']; subst; auto.
    apply Forall_forall; intros z Hz; rewrite Forall_forall in Hall, Hny'; specialize (Hall z Hz).
    apply Bleb_ext; auto; simpl in Hall; destruct (Rle_lt_dec (ext y) (ext z)) as [|Hlt]; [assumption|].
    apply (Bltb_ext z y) in Hlt; auto; congruence.
  - exists zs; split.
    + apply (sort_scalar (NT := f64_num L)); auto; unfold len; f_equal; symmetry; apply Permutation_length, P2.
    + pose proof (sorted_unique _ ys zs Hwy P2 Hso Hso2) as U; revert U.
      assert (Hnz : Forall not_nan zs).
      { apply Forall_forall; intros y Hy; rewrite Forall_forall in Hny; apply Hny; eapply Permutation_in; [symmetry; exact P2|exact Hy]. }
      clear -Hny Hnz; intros U; induction U as [|y z ys zs [H1 H2] U IH]; constructor; inversion Hny; inversion Hnz; subst; auto.
      simpl in H1, H2; apply Beqb_ext; auto.
      destruct (Rtotal_order (ext y) (ext z)) as [Hl|[He|Hl]]; [|exact He|].
      * apply (Bltb_ext y z) in Hl; auto; congruence.
      * apply (Bltb_ext z y) in Hl; auto; congruence.
Qed.
Print Assumptions C43_sort_scalar.

(** with a NaN among other values the comparison is no strict weak order and the call is undefined *)
Theorem C43_sort_nan_undefined :
  forall (L : Libm) (sorter : Sorter),
  sort_default (H := f64_num L) sorter (mk 1 (col [#1; f64_nan; #2]) 3) = UB.
Proof. intros; vm_compute; reflexivity. Qed.
Print Assumptions C43_sort_nan_undefined.

Example C43_witness :
  conforms insertion_sorter /\
  repr (mk 1 (col [#3; #1; #2]) 3) 1 (col [#3; #1; #2]) /\ Forall not_nan [#3; #1; #2] /\
  (let* r := sort_default insertion_sorter (mk 1 (col [#3; #1; #2]) 3) in Ok (map show (s_ r)))
  = Ok (map show [#1; #2; #3]).
Proof.
  split; [exact insertion_sorter_conforms|]; split; [repr_ex|]; split; [repeat constructor|vm_compute; reflexivity].
Qed.

(** ** C44 *)
Theorem C44_sort_vector :
  forall (L : Libm) (sorter : Sorter) (s : Serie F64) k rows,
  conforms sorter -> repr s k rows -> 2 <= k -> Forall (Forall not_nan) rows ->
  exists ys, sort_default (H := f64_num L) sorter s = Ok (mk k ys 3) /\ Permutation rows ys /\
    StronglySorted (fun a b => ~ lexR (map ext b) (map ext a)) ys.
Proof.
  intros L sorter s k rows Hc Hs Hk Hn.
  pose proof (lex_swo (NT := f64_num L) not_nan ext (f64_ordered L) k rows (repr_rows _ _ _ Hs) Hn) as Hw.
  destruct (Hc _ _ rows Hw) as [P Hso]; set (ys := sorter _ (@lex_lt _ (f64_num L)) rows) in *.
  exists ys; split; [apply (sort_arrays (NT := f64_num L)); auto|]; split; [exact P|].
  assert (Hny : Forall (Forall not_nan) ys).
  { apply Forall_forall; intros y Hy; rewrite Forall_forall in Hn; apply Hn; eapply Permutation_in; [symmetry; exact P|exact Hy]. }
  assert (Hky : Forall (fun r => len r = k) ys).
  { apply Forall_forall; intros y Hy; pose proof (repr_rows _ _ _ Hs) as Hz; unfold rows_of_size in Hz; rewrite Forall_forall in Hz.
    apply Hz; eapply Permutation_in; [symmetry; exact P|exact Hy]. }
  clear -Hso Hny Hky; unfold sorted_by in Hso; induction Hso as [|y ys Hso IH Hall]; constructor;
    inversion Hny as [|? ? Hy Hny']; inversion Hky as [|? ? Ly Hky']; subst; auto.
  apply Forall_forall; intros z Hz; rewrite Forall_forall in Hall, Hny', Hky'; specialize (Hall z Hz).
  intros Hlex; apply (lex_lt_lexR (NT := f64_num L) not_nan ext (f64_ordered L)) in Hlex; auto.
  - congruence.
  - specialize (Hky' z Hz); unfold len in *; lia.
Qed.
Print Assumptions C44_sort_vector.

Theorem C44_sort_by_comparator :
  forall (T : Type) (NT : Num T) (sorter : Sorter) (s : Serie T) k rows comp,
  conforms sorter -> repr s k rows -> 2 <= k -> swo_on comp rows = true ->
  exists ys, sort_by sorter comp s = Ok (mk k ys 3) /\ Permutation rows ys /\
    StronglySorted (fun a b => comp b a = false) ys.
Proof.
  intros T NT sorter s k rows comp Hc Hs Hk Hw; destruct (Hc _ comp rows Hw) as [P Hso].
  eexists; split; [apply sort_arrays; eauto|]; split; [exact P|exact Hso].
Qed.
Print Assumptions C44_sort_by_comparator.

(** [swo_on] is implied by a strict weak order on all arrays *)
Theorem C44_swo_everywhere :
  forall (A : Type) (lt : A -> A -> bool),
  (forall x, lt x x = false) ->
  (forall x y z, lt x y = true -> lt y z = true -> lt x z = true) ->
  (forall x y z, lt x y = false -> lt y x = false -> lt y z = false -> lt z y = false -> lt x z = false /\ lt z x = false) ->
  forall l, swo_on lt l = true.
Proof.
  intros A lt H1 H2 H3 l; apply swo_on_spec; split; [intros x _; apply H1|split; [intros x y z _ _ _; apply H2|intros x y z _ _ _; apply H3]].
Qed.
Print Assumptions C44_swo_everywhere.

Example C44_witness :
  let rows := [[#2; #1]; [#1; #5]; [#1; #3]] in
  repr (mk 2 rows 3) 2 rows /\ Forall (Forall not_nan) rows /\
  (let* r := sort_default insertion_sorter (mk 2 rows 3) in Ok (map show (s_ r)))
  = Ok (map show [#1; #3; #1; #5; #2; #1]).
Proof. split; [repr_ex|]; split; [repeat constructor|vm_compute; reflexivity]. Qed.

(** ** C45: the comparator is ignored on scalar Series *)
Theorem C45_scalar_comparator_refuted :
  exists (comp : list F64 -> list F64 -> bool) (s : Serie F64) xs,
    repr s 1 (col xs) /\ (forall l, swo_on comp l = true) /\
    forall sorter, conforms sorter ->
    exists ys, sort_by sorter comp s = Ok (mk 1 (col ys) 3) /\ ~ sorted_by comp (col ys).
Proof.
  pose (key := fun r : list F64 => match r with x :: _ => if Bltb x #2 then 0 else 1 | [] => 0 end).
  exists (fun a b => key b <? key a), (mk 1 (col [#1; #3]) 3), [#1; #3]; split; [repr_ex|].
  assert (K1 : key [#1] = 0) by (vm_compute; reflexivity).
  assert (K3 : key [#3] = 1) by (vm_compute; reflexivity).
  split.
  - intros l; apply C44_swo_everywhere.
    + intros x; apply Z.ltb_irrefl.
    + intros x y z; rewrite !Z.ltb_lt; lia.
    + intros x y z; rewrite !Z.ltb_ge; lia.
  - intros sorter Hc.
    assert (Hn : Forall not_nan [#1; #3]) by (repeat constructor).
    pose proof (keyed_swo (NT := F64N) not_nan ext (f64_ordered libm0) _ Hn) as Hw.
    destruct (Hc F64 _ _ Hw) as [P Hso]; exists (sorter F64 n_ltb [#1; #3]); split.
    + apply sort_scalar; [repr_ex|exact Hw|unfold len; f_equal; symmetry; apply Permutation_length, P].
    + destruct (Permutation_length_2_inv P) as [E|E]; rewrite E in *.
      * intros Hb; inversion Hb as [|? ? _ Hall]; subst; inversion Hall as [|? ? H1 _]; subst.
        rewrite K1, K3 in H1; discriminate.
      * intros _; inversion Hso as [|? ? _ Hall]; subst; inversion Hall as [|? ? H1 _]; subst.
        vm_compute in H1; discriminate.
Qed.
Print Assumptions C45_scalar_comparator_refuted.

(** what happens instead: scalar Series are always sorted by [<], whatever the comparator *)
Theorem C45_scalar_comparator_ignored :
  forall (T : Type) (NT : Num T) (sorter : Sorter) (s : Serie T) comp comp',
  itemSize s = 1 -> sort_by sorter comp s = sort_by sorter comp' s.
Proof. intros T NT sorter s comp comp' E; unfold sort_by; rewrite E; reflexivity. Qed.
Print Assumptions C45_scalar_comparator_ignored.

(** ** C100 *)
Section Print.
  Context {T : Type} {NT : Num T}.

  (** the text of an item: a number, or numbers in parentheses *)
  Definition item_text (k : Z) (r : list T) : list (token T) :=
    if k =? 1 then map NumT r
    else Text "(" :: join [Text ","] (map (fun x => [NumT x]) r) ++ [Text ")"].

  Lemma join_app {A} (sep : list A) l x : l <> [] -> join sep (l ++ [x]) = join sep l ++ sep ++ x.
  Proof.
    induction l as [|y l IH]; intros Hne; [congruence|].
    destruct l as [|z l]; [reflexivity|].
    change (y ++ sep ++ join sep ((z :: l) ++ [x]) = (y ++ sep ++ join sep (z :: l)) ++ sep ++ x).
    rewrite IH by discriminate; rewrite <- !app_assoc; reflexivity.
  Qed.
  Lemma join_last {A} (sep : list A) l x : join sep (l ++ [x]) = concat (map (fun y => y ++ sep) l) ++ x.
  Proof.
    induction l as [|y l IH]; [reflexivity|].
    cbn [map concat]; rewrite <- app_assoc, <- IH, <- app_assoc.
    destruct l; reflexivity.
  Qed.

  Lemma print_array_ok (v : list T) : v <> [] -> len v < 18446744073709551616 ->
    print_array v = Ok (Text "(" :: join [Text ","] (map (fun x => [NumT x]) v) ++ [Text ")"]).
  Proof.
    intros Hne Hb; destruct (exists_last Hne) as (w & x & ->); unfold print_array.
    rewrite len_app, len_cons, len_nil in *; pose proof (len_nonneg w).
    replace (len w + (0 + 1) - 1) with (len w) by lia; rewrite u64_small by lia.
    assert (E : mapO (fun j => let* x0 := rd (w ++ [x]) j in Ok [NumT x0; Text ","]) (iota (len w))
                = Ok (map (fun y => [NumT y; Text ","]) w)).
    { rewrite (mapO_ext _ (rd (map (fun y => [NumT y; Text ","]) w))).
      - rewrite <- (len_map (fun y => [@NumT T y; Text ","]) w); apply mapO_rd_iota.
      - intros i Hi; apply in_iota in Hi; rewrite !rd_nth_error; destruct (Z.leb_spec 0 i); [|lia].
        rewrite nth_error_app1 by (unfold len in Hi; lia); rewrite nth_error_map.
        destruct (nth_error w (Z.to_nat i)); reflexivity. }
    rewrite E; cbn [obind].
    assert (El : rd (w ++ [x]) (len w) = Ok x).
    { apply rd_nat; rewrite nth_error_app2 by lia; rewrite Nat.sub_diag; reflexivity. }
    rewrite El; cbn [obind]; rewrite map_app; cbn [map].
    rewrite join_last, map_map, <- app_assoc; reflexivity.
  Qed.

  Lemma print_item_ok (s : Serie T) k rows i r : repr s k rows -> 1 <= k ->
    nth_error rows i = Some r -> print_item s (Z.of_nat i) = Ok (item_text k r).
  Proof.
    intros Hs Hk Hr; unfold print_item, item_text; rewrite (repr_itemSize _ _ _ Hs).
    pose proof (rows_nth k rows i r (repr_rows _ _ _ Hs) Hr) as Lr.
    assert (HB : k < 2147483648) by apply Hs.
    destruct (Z.eqb_spec k 1) as [->|Hk1].
    - pose proof (rows_size1_col rows (repr_rows _ _ _ Hs)) as Ec; rewrite Ec in Hs, Hr.
      unfold col in Hr; rewrite nth_error_map in Hr; destruct (nth_error (concat rows) i) as [x|] eqn:Ex; [|discriminate].
      injection Hr as <-; rewrite (repr_nth_scalar s (concat rows) Hs i x Ex : get_double s (Z.of_nat i) = Ok x); reflexivity.
    - rewrite (repr_nth s k rows Hs i r Hr : get_array s (Z.of_nat i) = Ok r); cbn [obind].
      apply print_array_ok; [intros ->; rewrite len_nil in Lr; lia|lia].
  Qed.

  Lemma print_ok (s : Serie T) k rows : repr s k rows -> 1 <= k ->
    print s = Ok ([Text "Serie:"; Endl; Text "  itemSize : "; IntT k; Endl; Text "  count    : "; IntT (len rows); Endl;
                   Text "  dimension: "; IntT (dimension s); Endl; Text "  values   : ["]
                  ++ join [Text ", "] (map (item_text k) rows) ++ [Text "]"; Endl]).
  Proof.
    intros Hs Hk; unfold print; rewrite (repr_itemSize _ _ _ Hs), (repr_count _ _ _ Hs).
    pose proof (print_item_ok s k rows) as PI.
    assert (Hl : len rows < 4294967296) by apply Hs.
    destruct (Z.ltb_spec 0 (len rows)) as [Hp|Hp].
    - assert (Hne : rows <> []) by (intros E; rewrite E in Hp; unfold len in Hp; simpl in Hp; lia).
      destruct (exists_last Hne) as (w & r & E).
      assert (Ew : len rows = len w + 1) by (rewrite E, len_app, len_cons, len_nil; lia).
      pose proof (len_nonneg w).
      rewrite u32_small by lia; replace (len rows - 1) with (len w) by lia.
      assert (E1 : mapO (fun i => let* t := print_item s i in Ok (t ++ [Text ", "])) (iota (len w))
                   = Ok (map (fun r => item_text k r ++ [Text ", "]) w)).
      { rewrite (mapO_ext _ (rd (map (fun r => item_text k r ++ [Text ", "]) w))).
        - rewrite <- (len_map (fun r => item_text k r ++ [Text ", "]) w); apply mapO_rd_iota.
        - intros i Hi; apply in_iota in Hi; rewrite rd_nth_error; destruct (Z.leb_spec 0 i); [|lia].
          destruct (nth_error w (Z.to_nat i)) as [r0|] eqn:Er; [|apply nth_error_None in Er; unfold len in Hi; lia].
          rewrite nth_error_map, Er; cbn [option_map].
          replace i with (Z.of_nat (Z.to_nat i)) at 1 by lia.
          rewrite (PI (Z.to_nat i) r0 Hs Hk); [reflexivity|].
          rewrite E, nth_error_app1 by (unfold len in Hi; lia); exact Er. }
      rewrite E1; cbn [obind].
      assert (E2 : print_item s (len w) = Ok (item_text k r)).
      { apply (PI (length w)); auto; rewrite E, nth_error_app2, Nat.sub_diag by lia; reflexivity. }
      rewrite E2; cbn [obind].
      replace (map (item_text k) rows) with (map (item_text k) w ++ [item_text k r]) by (rewrite E, map_app; reflexivity).
      rewrite join_last, map_map.
      rewrite <- !app_assoc; reflexivity.
    - assert (rows = []) by (apply len_0; pose proof (len_nonneg rows); lia); subst rows; reflexivity.
  Qed.
End Print.

Theorem C100_print :
  forall (T : Type) (NT : Num T) (s : Serie T) k rows,
  repr s k rows -> 1 <= k ->
  print s = Ok ([Text "Serie:"; Endl; Text "  itemSize : "; IntT k; Endl; Text "  count    : "; IntT (len rows); Endl;
                 Text "  dimension: "; IntT (dimension s); Endl; Text "  values   : ["]
                ++ join [Text ", "] (map (fun r => match r with
                                                   | [x] => if k =? 1 then [NumT x] else Text "(" :: [NumT x] ++ [Text ")"]
                                                   | _ => Text "(" :: join [Text ","] (map (fun x => [NumT x]) r) ++ [Text ")"]
                                                   end) rows)
                ++ [Text "]"; Endl]).
Proof.
  intros T NT s k rows Hs Hk; rewrite (print_ok s k rows Hs Hk); do 2 f_equal.
  f_equal; f_equal; apply map_ext_in; intros r Hin; unfold item_text.
  pose proof (repr_rows _ _ _ Hs) as Hr; unfold rows_of_size in Hr; rewrite Forall_forall in Hr; specialize (Hr r Hin).
  destruct (Z.eqb_spec k 1) as [->|Hk1].
  - destruct r as [|x [|y r]]; [rewrite len_nil in Hr; lia|reflexivity|rewrite !len_cons in Hr; pose proof (len_nonneg r); lia].
  - destruct r as [|x [|y r]]; reflexivity.
Qed.
Print Assumptions C100_print.

Theorem C100_print_all :
  forall (T : Type) (NT : Num T) (ss : list (Serie T)) texts,
  Forall2 (fun s t => print s = Ok t) ss texts ->
  print_all ss = Ok (concat (map (fun p => [Text "Series "; IntT (snd p + 1); Text ":"; Endl] ++ fst p) (enum texts))).
Proof.
  intros T NT ss texts Hf; unfold print_all.
  assert (G : forall pre post post', ss = pre ++ post -> Forall2 (fun s t => print s = Ok t) post post' ->
    mapO (fun i => let* s := rd ss i in let* t := print s in Ok ([Text "Series "; IntT (i + 1); Text ":"; Endl] ++ t))
         (seqZ (length pre) (length post))
    = Ok (map (fun p => [Text "Series "; IntT (snd p + 1); Text ":"; Endl] ++ fst p) (enum_from (len pre) post'))).
  { intros pre post; revert pre; induction post as [|s post IH]; intros pre post' E F; inversion F as [|? t ? ts Hp F']; subst; [reflexivity|].
    cbn [length]; rewrite seqZ_S; cbn [mapO].
    rewrite (rd_nat _ (length pre) s) by (rewrite nth_error_app2, Nat.sub_diag by lia; reflexivity).
    cbn [obind]; rewrite Hp; cbn [obind].
    specialize (IH (pre ++ [s]) ts ltac:(rewrite <- app_assoc; reflexivity) F').
    rewrite app_length, Nat.add_1_r in IH; rewrite IH; cbn [obind enum_from map fst snd].
    rewrite len_app; reflexivity. }
  pose proof (G [] ss texts eq_refl Hf) as E; change (length []) with 0%nat in E.
  rewrite iota_len, E; reflexivity.
Qed.
Print Assumptions C100_print_all.

Example C100_witness :
  let s := mk 2 [[#1; #2]; [#3; #4]] 3 in
  repr s 2 [[#1; #2]; [#3; #4]] /\
  print s = Ok [Text "Serie:"; Endl; Text "  itemSize : "; IntT 2; Endl; Text "  count    : "; IntT 2; Endl;
                Text "  dimension: "; IntT 3; Endl; Text "  values   : ["; Text "("; NumT #1; Text ","; NumT #2; Text ")";
                Text ", "; Text "("; NumT #3; Text ","; NumT #4; Text ")"; Text "]"; Endl].
Proof. split; [repr_ex|reflexivity]. Qed.
