(** * C154: which requests for an attribute are undefined. *)
From Coq Require Import ZArith List Lia Bool.
From Verif Require Import Base Num Serie Functional Mathf Algebra Eigen Geo Dataframe Attributes Spec BaseFacts AlgebraFacts EigenFacts F64 Props_Functional Props_Dataframe SafeFacts Props_Components.
From Coq Require String Ascii.
Import ListNotations.
Import String.StringSyntax.
Local Open Scope string_scope.
Local Open Scope list_scope.
Open Scope Z_scope.

(** ** Specification *)
(** Where the name of an entry of a matrix leads; the names a symmetric matrix has lead to its places. *)
Definition entry_layout : list (string * nat) :=
  [("xx", 0); ("xy", 1); ("xz", 2); ("yy", 3); ("yz", 4); ("zz", 5); ("yx", 3); ("zx", 6); ("zy", 7)]%string%nat.

Section Spec.
  Context {T : Type} `{Num T}.
  (** every Serie of the Dataframe is sound; all have dimension 3, as in every Dataframe that the calls build (C50) *)
  Definition in_order (d : Dataframe T) : Prop := Forall (fun e => sound (snd (snd e)) /\ dimension_ (snd (snd e)) = 3) (df_series d).
  Definition nonempty (d : Dataframe T) (n : string) : Prop := 1 <= itemSize_ (df_get d n).
  (** the request [name] leads to place [i] of the items of the Serie [n] *)
  Inductive leads (d : Dataframe T) (k : Z) (name : string) : string -> nat -> Prop :=
  | lead_letter n c i : name = n +++ c -> In (c, i) vector_layout -> nonempty d n -> leads d k name n i
  | lead_entry n c i : (forall n' c' i', name = n' +++ c' -> In (c', i') vector_layout -> ~ nonempty d n') ->
      name = n +++ c -> In (c, i) entry_layout -> nonempty d n -> leads d k name n i
  | lead_number n : k = 1 -> name = n +++ "0" -> nonempty d n -> leads d k name n 0.
  (** ... and the items are shorter *)
  Definition too_short (d : Dataframe T) (n : string) (i : nat) : Prop :=
    itemSize_ (df_get d n) <= Z.of_nat i /\ 0 < count_ (df_get d n).
  (** the numbers of [indices] are numbers of vertices *)
  Definition triangulates (positions indices : Serie T) : Prop :=
    Forall (fun x => exists z, n_to_Z x = Some z /\ 0 <= z < count_ positions) (s_ indices).
End Spec.

Section Ask.
  Context {T : Type} `{Num T}.

  Lemma in_order_get (d : Dataframe T) : in_order d -> forall n, sound (df_get d n) /\ dimension_ (df_get d n) = 3.
  Proof.
    unfold in_order, df_get. intros Hd n. destruct (map_find n (df_series d)) as [c|] eqn:E; [|split; [exact sound_default|reflexivity]].
    induction (df_series d) as [|[m e] l IH]; [discriminate|]. cbn [map_find] in E. inversion Hd as [|? ? A B]; subst.
    destruct (String.eqb m n); [injection E as <-; exact A|apply IH; assumption].
  Qed.
  Lemma safe_component (s : Serie T) i : sound s -> 0 <= i < itemSize_ s -> safely sound (component i s).
  Proof.
    intros Hs Hi; unfold component. apply safelyM_run. eapply safelyM_fst.
    apply (safe_map_vv (fun item _ => lift (let* x := rd item i in Ok [x])) s Hs).
    intros v j Hv Hj Hk; apply safelyM_lift. apply (safely_bind (fun _ => True)); [apply safely_rd; lia|].
    intros x _; simpl. change (len [x]) with 1; lia.
  Qed.
  Lemma component_none (s : Serie T) i : count_ s = 0 -> component i s = Ok serie_default.
  Proof. intros E; unfold component, map_vv, map_arr, run, count; rewrite E; reflexivity. Qed.
  Lemma component_short (s : Serie T) i : sound s -> itemSize_ s <= i -> 0 < count_ s -> component i s = UB.
  Proof.
    intros Hs Hi Hc; unfold component, map_vv, map_arr, run, count.
    destruct (Z.eqb_spec (count_ s) 0); [lia|].
    pose proof (safe_get_array s 0 Hs ltac:(lia)) as G. unfold mbind at 1, lift at 1.
    destruct (get_array s 0) as [v|e|] eqn:E; [|exfalso|destruct G].
    - simpl in G. unfold mbind at 1, lift at 1. rewrite rd_out by (right; lia). reflexivity.
    - revert E; unfold get_array. destruct (Z.eqb_spec (itemSize_ s) 1).
      + destruct (sound_bounds s Hs) as (_ & _ & B & _). destruct (rd_in_range (s_ s) 0 ltac:(nia)) as (x & -> & _). discriminate.
      + destruct (sound_bounds s Hs) as (B1 & _). unfold read_item. destruct (Z.ltb_spec (itemSize_ s) 0); [lia|].
        intros E. assert (X : forall l, mapO (fun j => rd (s_ s) (u32 (u32 (0 * itemSize_ s) + j))) l <> Throw e).
        { induction l as [|j l IH]; [discriminate|]. simpl. unfold rd at 1. destruct (_ && _); [|discriminate].
          destruct (nth_error _ _); [|discriminate]. simpl. destruct (mapO _ l); [discriminate| |discriminate]. simpl in *. intros X; injection X as ->; apply IH; reflexivity. }
        exact (X _ E).
  Qed.

  Lemma index_some name n l : forall a j, index_of name n l a = Some j ->
    exists m c, nth_error l m = Some c /\ name = n +++ c /\ j = a + Z.of_nat m.
  Proof.
    induction l as [|x l IH]; intros a j E; [discriminate|]. cbn [index_of] in E.
    destruct (String.eqb_spec name (n +++ x)) as [->|].
    - injection E as <-. exists 0%nat, x. repeat split; cbn; lia.
    - destruct (IH (a + 1) j E) as (m & c & A & B & C). exists (S m), c. repeat split; [exact A|exact B|lia].
  Qed.
  Lemma letter_some name n j : index_of name n vector3Names 0 = Some j ->
    exists c i, name = n +++ c /\ In (c, i) vector_layout /\ j = Z.of_nat i.
  Proof.
    intros E; destruct (index_some _ _ _ _ _ E) as (m & c & A & B & C). exists c, m. split; [exact B|split; [|lia]].
    destruct m as [|[|[|m]]]; cbn in A; [| | |destruct m; discriminate]; injection A as <-; cbn; tauto.
  Qed.
  Lemma entry_some name n j : or_else (index_of name n smatrix3Names 0) (index_of name n matrix3Names 0) = Some j ->
    exists c i, name = n +++ c /\ In (c, i) entry_layout /\ j = Z.of_nat i.
  Proof.
    unfold or_else; destruct (index_of name n smatrix3Names 0) as [j'|] eqn:E0; intros E.
    - injection E as ->. destruct (index_some _ _ _ _ _ E0) as (m & c & A & B & C). exists c, m. split; [exact B|split; [|lia]].
      destruct m as [|[|[|[|[|[|m]]]]]]; cbn in A; [| | | | | |destruct m; discriminate]; injection A as <-; cbn; tauto.
    - destruct (index_some _ _ _ _ _ E) as (m & c & A & B & C). exists c, m. split; [exact B|split; [|lia]].
      subst name; rewrite index_of_prefix in E0.
      do 9 (destruct m as [|m]; [cbn in A; injection A as <-; first [discriminate E0|cbn; tauto]|]). cbn in A; destruct m; discriminate.
  Qed.
  Lemma letter_index c i : In (c, i) vector_layout -> String.length c = 1%nat /\ index_of c "" vector3Names 0 = Some (Z.of_nat i).
  Proof. intros Hin; repeat (destruct Hin as [Hin|Hin]; [injection Hin as <- <-; split; reflexivity|]); destruct Hin. Qed.
  Lemma entry_index c i : In (c, i) entry_layout ->
    String.length c = 2%nat /\ or_else (index_of c "" smatrix3Names 0) (index_of c "" matrix3Names 0) = Some (Z.of_nat i).
  Proof. intros Hin; repeat (destruct Hin as [Hin|Hin]; [injection Hin as <- <-; split; reflexivity|]); destruct Hin. Qed.
  Lemma last_letter n n' c : forall i, In (c, i) vector_layout -> n +++ "0" <> n' +++ c.
  Proof.
    intros i Hi E. apply (f_equal (fun x => String.get (String.length x - 1) x)) in E.
    repeat (destruct Hi as [Hi|Hi]; [injection Hi as <- <-; rewrite !get_last in E; discriminate|]); destruct Hi.
  Qed.
  Lemma last_entry n n' c : forall i, In (c, i) entry_layout -> n +++ "0" <> n' +++ c.
  Proof.
    intros i Hi E. apply (f_equal (fun x => String.get (String.length x - 1) x)) in E.
    assert (P : forall a b, n' +++ String.String a (String.String b "") = (n' +++ String.String a "") +++ String.String b "")
      by (intros; rewrite append_assoc; reflexivity).
    repeat (destruct Hi as [Hi|Hi]; [injection Hi as <- <-; rewrite P, !get_last in E; discriminate|]); destruct Hi.
  Qed.

  (** what the outcome is, given the place found *)
  Lemma place_outcome (s : Serie T) i : sound s -> 0 <= i -> (component i s = UB <-> itemSize_ s <= i /\ 0 < count_ s) /\ (component i s <> UB -> safely sound (component i s)).
  Proof.
    intros Hs Hi. destruct (sound_bounds s Hs) as (_ & B2 & _).
    destruct (Z.eq_dec (count_ s) 0) as [E|E].
    - rewrite (component_none s i E). split; [split; [discriminate|lia]|intros _; exact sound_default].
    - destruct (Z_lt_le_dec i (itemSize_ s)) as [L|L].
      + pose proof (safe_component s i Hs ltac:(lia)) as G. split; [split; [|lia]|intros _; exact G]. intros X; rewrite X in G; destruct G.
      + rewrite (component_short s i Hs L ltac:(lia)). split; [split; [lia|reflexivity]|intros X; contradiction].
  Qed.

  Theorem C154_components : forall (d : Dataframe T) k name, in_order d ->
    (components_serie d k name = UB <-> k <= 1 /\ exists n i, leads d k name n i /\ too_short d n i) /\
    (components_serie d k name <> UB -> safely sound (components_serie d k name)).
  Proof.
    intros d k name Hd. pose proof (in_order_get d Hd) as Hd'; clear Hd; rename Hd' into Hd. unfold components_serie.
    destruct (Z.ltb_spec 1 k) as [L|L].
    { split; [split; [discriminate|lia]|intros _; exact sound_default]. }
    assert (LETTER : forall n c i, name = n +++ c -> In (c, i) vector_layout -> n = chop 1 name /\ index_of name n vector3Names 0 = Some (Z.of_nat i)).
    { intros n c i -> Hi. destruct (letter_index c i Hi) as [A B]. rewrite (chop_append 1 n c A), index_of_prefix. auto. }
    assert (ENTRY : forall n c i, name = n +++ c -> In (c, i) entry_layout ->
      n = chop 2 name /\ or_else (index_of name n smatrix3Names 0) (index_of name n matrix3Names 0) = Some (Z.of_nat i)).
    { intros n c i -> Hi. destruct (entry_index c i Hi) as [A B]. rewrite (chop_append 2 n c A), !index_of_prefix. auto. }
    assert (END : forall n i s (o : outcome (Serie T)), sound s -> o = component (Z.of_nat i) s ->
      (itemSize_ s = itemSize_ (df_get d n) /\ count_ s = count_ (df_get d n)) -> leads d k name n i ->
      (forall n' i', leads d k name n' i' -> n' = n /\ i' = i) ->
      (o = UB <-> k <= 1 /\ exists n i, leads d k name n i /\ too_short d n i) /\ (o <> UB -> safely sound o)).
    { intros n i s o Hs -> [E1 E2] Hl Hu. destruct (place_outcome s (Z.of_nat i) Hs ltac:(lia)) as [A B]. split; [|exact B].
      rewrite A. unfold too_short. split.
      - intros C; split; [exact L|exists n, i; rewrite <- E1, <- E2; auto].
      - intros [_ (n' & i' & C & D)]. destruct (Hu n' i' C) as [-> ->]. rewrite E1, E2; exact D. }
    cbv zeta.
    change (isValid (serie_copy (df_get d (chop 1 name)))) with (0 <? itemSize_ (df_get d (chop 1 name))).
    change (dimension (serie_copy (df_get d (chop 1 name)))) with (dimension_ (df_get d (chop 1 name))).
    change (dimension (serie_assign (serie_copy (df_get d (chop 1 name))) (df_get d (chop 2 name)))) with (dimension_ (df_get d (chop 1 name))).
    rewrite (proj2 (Hd (chop 1 name))). cbn [Z.eqb Pos.eqb].
    change (isValid (serie_assign (serie_copy (df_get d (chop 1 name))) (df_get d (chop 2 name)))) with (0 <? itemSize_ (df_get d (chop 2 name))).
    change (isValid (serie_assign (serie_assign (serie_copy (df_get d (chop 1 name))) (df_get d (chop 2 name))) (df_get d (chop 1 name))))
      with (0 <? itemSize_ (df_get d (chop 1 name))).
    destruct (if 0 <? itemSize_ (df_get d (chop 1 name)) then index_of name (chop 1 name) vector3Names 0 else None) as [j|] eqn:E1.
    - destruct (Z.ltb_spec 0 (itemSize_ (df_get d (chop 1 name)))) as [V|]; [|discriminate].
      destruct (letter_some _ _ _ E1) as (c & i & A & B & ->).
      apply (END (chop 1 name) i (serie_copy (df_get d (chop 1 name)))).
      + destruct (Hd (chop 1 name)) as [S _]. destruct (df_get d (chop 1 name)); exact S.
      + reflexivity.
      + split; reflexivity.
      + apply (lead_letter d k name (chop 1 name) c i); [exact A|exact B|unfold nonempty; lia].
      + intros n' i' C. destruct C as [n' c' i' C1 C2 C3|n' c' i' C0 C1 C2 C3|n' C0 C1 C2].
        * destruct (LETTER n' c' i' C1 C2) as [X Y]. rewrite <- X in E1; rewrite E1 in Y; injection Y as Y. split; [exact X|lia].
        * exfalso; apply (C0 (chop 1 name) c i A B). unfold nonempty; lia.
        * exfalso; apply (last_letter n' (chop 1 name) c i B). congruence.
    - assert (NL : forall n' c' i', name = n' +++ c' -> In (c', i') vector_layout -> ~ nonempty d n').
      { intros n' c' i' C1 C2 C3. destruct (LETTER n' c' i' C1 C2) as [X Y]. unfold nonempty in C3. rewrite X in C3, Y.
        destruct (Z.ltb_spec 0 (itemSize_ (df_get d (chop 1 name)))); [congruence|lia]. }
      destruct (if 0 <? itemSize_ (df_get d (chop 2 name)) then or_else (index_of name (chop 2 name) smatrix3Names 0) (index_of name (chop 2 name) matrix3Names 0) else None) as [j|] eqn:E2.
      + destruct (Z.ltb_spec 0 (itemSize_ (df_get d (chop 2 name)))) as [V|]; [|discriminate].
        destruct (entry_some _ _ _ E2) as (c & i & A & B & ->).
        apply (END (chop 2 name) i (serie_assign (serie_copy (df_get d (chop 1 name))) (df_get d (chop 2 name)))).
        * destruct (Hd (chop 2 name)) as [S _]. destruct (df_get d (chop 2 name)); exact S.
        * reflexivity.
        * split; reflexivity.
        * apply (lead_entry d k name (chop 2 name) c i); [exact NL|exact A|exact B|unfold nonempty; lia].
        * intros n' i' C. destruct C as [n' c' i' C1 C2 C3|n' c' i' C0 C1 C2 C3|n' C0 C1 C2].
          -- exfalso; exact (NL n' c' i' C1 C2 C3).
          -- destruct (ENTRY n' c' i' C1 C2) as [X Y]. rewrite <- X in E2; rewrite E2 in Y; injection Y as Y. split; [exact X|lia].
          -- exfalso; apply (last_entry n' (chop 2 name) c i B). congruence.
      + assert (NE : forall n' c' i', name = n' +++ c' -> In (c', i') entry_layout -> ~ nonempty d n').
        { intros n' c' i' C1 C2 C3. destruct (ENTRY n' c' i' C1 C2) as [X Y]. unfold nonempty in C3. rewrite X in C3, Y.
          destruct (Z.ltb_spec 0 (itemSize_ (df_get d (chop 2 name)))); [congruence|lia]. }
        destruct (if 0 <? itemSize_ (df_get d (chop 1 name)) then index_of name (chop 1 name) (map to_string (iota k)) 0 else None) as [j|] eqn:E3.
        * destruct (Z.ltb_spec 0 (itemSize_ (df_get d (chop 1 name)))) as [V|]; [|discriminate].
          destruct (Z_lt_le_dec k 1) as [K|K]; [replace (iota k) with (@nil Z) in E3 by (unfold iota; replace (Z.to_nat k) with 0%nat by lia; reflexivity); discriminate|].
          assert (k = 1) as K1 by lia. rewrite K1 in E3. change (map to_string (iota 1)) with ["0"] in E3.
          destruct (index_some _ _ _ _ _ E3) as (m & c & A & B & ->). destruct m as [|[|m]]; try discriminate. cbn in A; injection A as <-.
          apply (END (chop 1 name) 0%nat (serie_assign (serie_assign (serie_copy (df_get d (chop 1 name))) (df_get d (chop 2 name))) (df_get d (chop 1 name)))).
          -- destruct (Hd (chop 1 name)) as [S _]. destruct (df_get d (chop 1 name)); exact S.
          -- reflexivity.
          -- split; reflexivity.
          -- apply lead_number; [exact K1|exact B|unfold nonempty; lia].
          -- intros n' i' C. destruct C as [n' c' i' C1 C2 C3|n' c' i' C0 C1 C2 C3|n' C0 C1 C2].
             ++ exfalso; exact (NL n' c' i' C1 C2 C3).
             ++ exfalso; exact (NE n' c' i' C1 C2 C3).
             ++ split; [|reflexivity]. rewrite C1, (chop_append 1 n' "0" eq_refl). reflexivity.
        * split; [|intros _; exact sound_default]. split; [discriminate|]. intros [_ (n' & i' & C & _)]. exfalso.
          destruct C as [n' c' i' C1 C2 C3|n' c' i' C0 C1 C2 C3|n' C0 C1 C2].
          -- exact (NL n' c' i' C1 C2 C3).
          -- exact (NE n' c' i' C1 C2 C3).
          -- unfold nonempty in C2. assert (X : chop 1 name = n') by (rewrite C1; apply chop_append; reflexivity). rewrite X, C0, C1 in E3.
             destruct (Z.ltb_spec 0 (itemSize_ (df_get d n'))); [|lia]. rewrite index_of_prefix in E3. discriminate.
  Qed.

  (** ** Coordinates *)
  Theorem C154_coordinates : forall (d : Dataframe T) names_ k name, in_order d -> (3 <= length names_)%nat ->
    (coordinates_serie names_ d k name = UB <->
       k = 1 /\ exists i, (i < 3)%nat /\ nth_error names_ i = Some name /\ (forall j, (j < i)%nat -> nth_error names_ j <> Some name) /\
       too_short d "positions" i) /\
    (coordinates_serie names_ d k name <> UB -> safely sound (coordinates_serie names_ d k name)).
  Proof.
    intros d names_ k name Hd Hn. pose proof (in_order_get d Hd) as Hd'; clear Hd; rename Hd' into Hd. unfold coordinates_serie, too_short. set (s := df_get d "positions").
    assert (Hs : sound s) by exact (proj1 (Hd "positions")).
    destruct (Z.eqb_spec k 1) as [K|K]; [|split; [split; [discriminate|intros [X _]; contradiction]|intros _; exact sound_default]].
    destruct names_ as [|x [|y [|z l]]]; cbn [length] in Hn; try lia. change (iota 3) with [0; 1; 2]. cbn [coordinates_loop].
    assert (L : forall i, 0 <= i < 3 -> 0 <= i < len (x :: y :: z :: l)) by (intros i Hi; rewrite !len_cons; pose proof (len_nonneg l); lia).
    assert (R : rd (x :: y :: z :: l) 0 = Ok x /\ rd (x :: y :: z :: l) 1 = Ok y /\ rd (x :: y :: z :: l) 2 = Ok z).
    { split; [|split]; [pose proof (L 0 ltac:(lia)) as A|pose proof (L 1 ltac:(lia)) as A|pose proof (L 2 ltac:(lia)) as A];
        destruct (rd_in_range _ _ A) as (u & -> & E); cbn in E; injection E as <-; reflexivity. }
    destruct R as (R0 & R1 & R2). rewrite R0; cbn [obind].
    assert (END : forall i, (i < 3)%nat -> nth_error (x :: y :: z :: l) i = Some name -> (forall j, (j < i)%nat -> nth_error (x :: y :: z :: l) j <> Some name) ->
      (component (Z.of_nat i) s = UB <-> k = 1 /\ exists i0, (i0 < 3)%nat /\ nth_error (x :: y :: z :: l) i0 = Some name /\
         (forall j, (j < i0)%nat -> nth_error (x :: y :: z :: l) j <> Some name) /\ itemSize_ s <= Z.of_nat i0 /\ 0 < count_ s) /\
      (component (Z.of_nat i) s <> UB -> safely sound (component (Z.of_nat i) s))).
    { intros i Hi Ei Fi. destruct (place_outcome s (Z.of_nat i) Hs ltac:(lia)) as [A B]. split; [|exact B]. rewrite A. split.
      - intros C; split; [exact K|exists i; auto].
      - intros [_ (j & Hj & Ej & Fj & C)]. assert (j = i) as -> ; [|exact C].
        destruct (Nat.lt_trichotomy i j) as [X|[X|X]]; [exfalso; exact (Fj i X Ei)|lia|exfalso; exact (Fi j X Ej)]. }
    destruct (String.eqb_spec name x) as [->|N0].
    { apply (END 0%nat); [lia|reflexivity|intros j Hj; lia]. }
    rewrite R1; cbn [obind]. destruct (String.eqb_spec name y) as [->|N1].
    { apply (END 1%nat); [lia|reflexivity|intros [|j] Hj; [cbn; congruence|lia]]. }
    rewrite R2; cbn [obind]. destruct (String.eqb_spec name z) as [->|N2].
    { apply (END 2%nat); [lia|reflexivity|intros [|[|j]] Hj; [cbn; congruence|cbn; congruence|lia]]. }
    split; [|intros _; exact sound_default]. split; [discriminate|]. intros [_ (i & Hi & Ei & _)].
    destruct i as [|[|[|i]]]; cbn in Ei; try lia; congruence.
  Qed.

  (** ** EigenValues, EigenVectors *)
  Lemma eigen3_shape (mat : list T) : len mat = 6 -> exists ev vecs, eigen3 mat = Ok (ev, vecs) /\ len ev = 3 /\ len vecs = 9.
  Proof.
    intros L. destruct (len6 mat L) as (a & b & c & e & f & g & ->). unfold eigen3.
    change (load3 [a; b; c; e; f; g]) with (Ok [a; b; e; c; f; g]). cbn [obind].
    destruct (symmetric_ok 3 [a; b; e; c; f; g] ltac:(lia) eq_refl) as (? & ? & ? & ? & ? & ev & ? & _ & _ & _ & _ & _ & L1 & E & L2).
    change (Z.of_nat 3) with 3 in E. eexists _, _; split; [exact E|]. unfold len. rewrite L1, L2. split; reflexivity.
  Qed.
  (** a callback giving arrays of one length *)
  Lemma safe_map_same (cb : list T -> Z -> M unit (list T)) (s : Serie T) m : sound s -> 1 <= m < 2147483648 -> count_ s * m < 4294967296 ->
    (forall v i, len v = itemSize_ s -> 0 <= i < count_ s -> exists r, run (cb v i) = Ok r /\ len r = m) ->
    safely (fun r => sound r /\ (count_ r = 0 \/ itemSize_ r = m)) (run (map_vv cb s)).
  Proof.
    intros Hs Hm Hc Hcb; destruct (sound_bounds s Hs) as (B1 & B2 & _). unfold map_vv. change (count s) with (count_ s).
    assert (RES : forall i st, 0 <= i < count_ s -> exists r, fst ((let! x := lift (get_array s i) in cb x i) st) = Ok r /\ len r = m \/ (exists e, fst ((let! x := lift (get_array s i) in cb x i) st) = Throw e)).
    { intros i [] Hi. pose proof (safe_get_array s i Hs Hi) as G. unfold mbind, lift. destruct (get_array s i) as [v|e|]; [|exists []; right; exists e; reflexivity|destruct G].
      destruct (Hcb v i G Hi) as (r & E & L). exists r; left; split; [exact E|exact L]. }
    destruct (Z.eq_dec (count_ s) 0) as [E|E].
    - unfold map_arr; rewrite E; simpl. split; [exact sound_default|left; reflexivity].
    - assert (A : safely (fun r => sound r /\ 1 <= itemSize_ r <= m /\ count_ r = count_ s) (run (map_arr (get_array s) cb (count_ s)))).
      { apply safelyM_run, safe_map_arr; try lia. intros i Hi st. destruct (RES i st Hi) as (r & [[X L]|[e X]]); rewrite X; simpl; [lia|exact I]. }
      destruct (run (map_arr (get_array s) cb (count_ s))) as [r|e|] eqn:Er; [|exact I|destruct A].
      destruct A as (A1 & _ & A2). split; [exact A1|right].
      unfold map_arr, run in Er. destruct (Z.eqb_spec (count_ s) 0) as [|_]; [lia|].
      destruct (RES 0 tt ltac:(lia)) as (f & [[X L]|[e X]]);
        unfold mbind at 1 in X; unfold mbind at 1 in Er; destruct (lift (get_array s 0) tt) as [[v|e'|] st]; try discriminate;
        unfold mbind at 1 in Er; destruct (cb v 0 st) as [[w|e'|] st']; try discriminate. cbn in X; injection X as ->.
      unfold mbind at 1 in Er. destruct (foldM _ _ _ st') as [[fl|e'|] st'']; try discriminate.
      cbn in Er. unfold serie_of in Er. destruct (s32 (len f) =? 0); [discriminate|]. injection Er as <-. cbn. rewrite s32_small by lia. exact L.
  Qed.

  Lemma last_empty name : last_id name = UB <-> name = "".
  Proof.
    split; [|intros ->; reflexivity]. destruct name as [|c n]; [reflexivity|]. intros E; exfalso; revert E. unfold last_id.
    replace (String.length (String.String c n) - 1)%nat with (String.length n) by (cbn; lia).
    assert (G : forall n c, String.get (String.length n) (String.String c n) <> None).
    { clear; induction n as [|x n IH]; intros c; [discriminate|]. cbn [String.length String.get]. apply IH. }
    destruct (String.get (String.length n) (String.String c n)) eqn:Eg; [discriminate|exfalso; exact (G n c Eg)].
  Qed.
  Theorem C154_eigen : forall (d : Dataframe T) k name, in_order d -> (forall n, count_ (df_get d n) * 9 < 4294967296) ->
    ((eigen_serie 1 eigenValues d k name = UB <-> k = 1 /\ name = "") /\
     (eigen_serie 1 eigenValues d k name <> UB -> safely sound (eigen_serie 1 eigenValues d k name))) /\
    ((eigen_serie 3 eigenVectors d k name = UB <-> k = 3 /\ name = "") /\
     (eigen_serie 3 eigenVectors d k name <> UB -> safely sound (eigen_serie 3 eigenVectors d k name))).
  Proof.
    intros d k name Hd Hn. pose proof (in_order_get d Hd) as Hd'; clear Hd; rename Hd' into Hd.
    assert (G : forall w eigen m, 3 <= m -> (forall s, sound s -> dimension_ s = 3 -> itemSize s = 6 -> count_ s * 9 < 4294967296 ->
        safely (fun r => sound r /\ (count_ r = 0 \/ itemSize_ r = m)) (eigen s)) ->
      (eigen_serie w eigen d k name = UB <-> k = w /\ name = "") /\ (eigen_serie w eigen d k name <> UB -> safely sound (eigen_serie w eigen d k name))).
    { intros w eigen m Hm He. unfold eigen_serie.
      destruct (Z.eqb_spec k w) as [K|K]; cbn [negb]; [|split; [split; [discriminate|tauto]|intros _; exact sound_default]].
      destruct (last_id name) as [id|e|] eqn:El; cbn [obind].
      - assert (N : name <> "") by (intros ->; discriminate). 
        match goal with |- (?o = UB <-> _) /\ _ => assert (S : safely sound o) end.
        { destruct (negb (isValid (df_get d (chop 1 name)))); [exact sound_default|].
          destruct (Hd (chop 1 name)) as [Hs D]. unfold dimension. rewrite D. cbn [Z.eqb Pos.eqb].
          destruct (Z.eqb_spec (itemSize (df_get d (chop 1 name))) 6) as [E6|]; [|exact sound_default]. cbn [negb orb].
          destruct (Z.ltb_spec id 1); [exact sound_default|]. destruct (Z.ltb_spec 3 id); [exact sound_default|]. cbn [orb].
          eapply safely_bind; [apply He; [exact Hs|exact D|exact E6|apply Hn]|]. intros r [Hr [E|E]].
          - rewrite (component_none r _ E). exact sound_default.
          - apply safe_component; [exact Hr|lia]. }
        split; [|intros _; exact S]. split; [intros X; rewrite X in S; destruct S|tauto].
      - exfalso; revert El; unfold last_id; destruct (String.get _ _); discriminate.
      - apply last_empty in El. split; [split; auto|intros X; contradiction]. }
    split; [apply (G 1 eigenValues 3)|apply (G 3 eigenVectors 9)]; try lia; intros s Hs D E6 Hc;
      destruct (sound_bounds s Hs) as (B1 & B2 & B3 & B4 & _ & B6 & _);
      [unfold eigenValues|unfold eigenVectors]; unfold eigen_refused, dimension; rewrite D, E6; cbn [Z.eqb Pos.eqb andb orb negb];
      (apply safe_map_same; [exact Hs|lia|lia|]); intros v i Hv Hi;
      destruct (eigen3_shape v ltac:(lia)) as (ev & vecs & E & L1 & L2); unfold run, lift; rewrite E; cbn; eexists; (split; [reflexivity|assumption]).
  Qed.

  (** ** Normals, Valence *)
  Definition ends {St A} (I : St -> Prop) (r : outcome A * St) : Prop :=
    match r with (Ok _, st) => I st | (Throw _, _) => True | (UB, _) => False end.
  Lemma each_ends {St A B} (I : Z -> St -> Prop) (get : Z -> outcome A) (f : A -> Z -> M St B) n st : 0 <= n ->
    (forall i st, 0 <= i < n -> I i st -> ends (I (i + 1)) ((let! x := lift (get i) in f x i) st)) -> I 0 st -> ends (I n) (each get f n st).
  Proof.
    intros Hn Hf H0; unfold each, iota.
    assert (G : forall m a st, (a + m <= Z.to_nat n)%nat -> I (Z.of_nat a) st ->
      ends (I (Z.of_nat (a + m))) (mapM (fun i => let! x := lift (get i) in f x i) (map Z.of_nat (seq a m)) st)).
    { induction m as [|m IH]; intros a st0 Ha Ia; [rewrite Nat.add_0_r; exact Ia|].
      cbn [seq map mapM]. specialize (Hf (Z.of_nat a) st0 ltac:(lia) Ia). unfold mbind at 1.
      destruct ((let! x := lift (get (Z.of_nat a)) in f x (Z.of_nat a)) st0) as [[b|e|] st1]; [|exact Logic.I|exact Hf].
      cbn [ends] in Hf. replace (Z.of_nat a + 1) with (Z.of_nat (S a)) in Hf by lia.
      specialize (IH (S a) st1 ltac:(lia) Hf). unfold mbind at 1.
      replace (a + S m)%nat with (S a + m)%nat by lia.
      destruct (mapM _ (map Z.of_nat (seq (S a) m)) st1) as [[bs|e|] st2]; [exact IH|exact Logic.I|exact IH]. }
    specialize (G (Z.to_nat n) 0%nat st ltac:(lia) H0). cbn [Nat.add] in G. rewrite Z2Nat.id in G by lia. exact G.
  Qed.

  Lemma get_array_from (s : Serie T) i v x : get_array s i = Ok v -> In x v -> In x (s_ s).
  Proof.
    assert (R : forall j y, rd (s_ s) j = Ok y -> In y (s_ s)).
    { intros j y; unfold rd; destruct (_ && _); [|discriminate]. destruct (nth_error (s_ s) (Z.to_nat j)) eqn:E; [|discriminate].
      intros X; injection X as <-. exact (nth_error_In _ _ E). }
    unfold get_array, read_item. destruct (itemSize_ s =? 1).
    - destruct (rd (s_ s) i) eqn:E; [|discriminate|discriminate]. intros X; injection X as <-. intros [<-|[]]. exact (R _ _ E).
    - destruct (itemSize_ s <? 0); [discriminate|]. generalize (iota (itemSize_ s)). intros l; revert v; induction l as [|j l IH]; intros v E Hx.
      + injection E as <-; destruct Hx.
      + cbn [mapO] in E. destruct (rd (s_ s) _) as [y| |] eqn:Ey in E; [|discriminate|discriminate]. cbn [obind] in E.
        destruct (mapO _ l) as [ys| |]; [|discriminate|discriminate]. injection E as <-. destruct Hx as [<-|Hx]; [exact (R _ _ Ey)|apply (IH ys); auto].
  Qed.

  Lemma safe_vertex (positions : Serie T) t k : sound positions -> itemSize_ positions = 3 ->
    Forall (fun x => exists z, n_to_Z x = Some z /\ 0 <= z < count_ positions) t -> 0 <= k < len t ->
    safely (fun v => len v = 3) (vertex positions t k).
  Proof.
    intros Hs H3 Ht Hk. unfold vertex. destruct (rd_in_range t k Hk) as (x & -> & E). cbn [obind].
    rewrite Forall_forall in Ht. destruct (Ht x (nth_error_In _ _ E)) as (z & Ez & Hz). unfold n_to_u32. rewrite Ez.
    destruct (sound_bounds positions Hs) as (_ & B2 & _).
    replace ((0 <=? z) && (z <? two32)) with true by (symmetry; apply andb_true_iff; split; [apply Z.leb_le|apply Z.ltb_lt; unfold two32]; lia).
    cbn [obind]. eapply safely_mono; [|apply safe_value; [exact Hs|exact Hz]]. intros v Hv; simpl in Hv; lia.
  Qed.
  Lemma len3_items (v : list T) : len v = 3 -> exists a b c, v = [a; b; c].
  Proof. exact (len3 v). Qed.

  Theorem C154_normals : forall (d : Dataframe T) name_ k name, in_order d -> triangulates (df_get d "positions") (df_get d "indices") ->
    safely sound (normals_serie name_ d k name).
  Proof.
    intros d name_ k name Hd Ht. pose proof (in_order_get d Hd) as Hd'; clear Hd; rename Hd' into Hd. unfold normals_serie. destruct (negb (String.eqb name name_)); [exact sound_default|].
    destruct (Hd "positions") as [Hp _], (Hd "indices") as [Hi _]. set (p := df_get d "positions") in *. set (s := df_get d "indices") in *.
    destruct (sound_bounds p Hp) as (_ & P2 & _ & _ & _ & P6 & _). destruct (sound_bounds s Hi) as (B1 & B2 & B3 & B4 & _ & B6 & _).
    unfold normals. destruct (negb (isValid p) || negb (isValid s)); [exact sound_default|].
    destruct (Z.eqb_spec (itemSize p) 3) as [E1|]; [|exact sound_default]. destruct (Z.eqb_spec (itemSize s) 3) as [E2|]; [|exact sound_default]. cbn [negb orb].
    change (count s) with (count_ s). rewrite (u32_small (count_ s * 3)) by lia.
    set (st0 := (createArray (count_ s * 3) (n_of_Z 0), 0)).
    pose (I := fun i (st : list T * Z) => len (fst st) = count_ s * 3 /\ (i < count_ s -> snd st = i * 3)).
    assert (G : ends (I (count_ s)) (each (get_array s) (normal_step p) (count_ s) st0)).
    { apply each_ends; [lia| |].
      - intros i [data m] Hi' (I1 & I2). cbn [fst snd] in I1, I2. specialize (I2 ltac:(lia)). subst m.
        unfold mbind at 1, lift at 1. pose proof (safe_get_array s i Hi Hi') as Gv. destruct (get_array s i) as [v|e|] eqn:Ev; [|exact Logic.I|destruct Gv].
        cbn [safely] in Gv. assert (Fv : Forall (fun x => exists z, n_to_Z x = Some z /\ 0 <= z < count_ p) v).
        { apply Forall_forall; intros x Hx. unfold triangulates in Ht; rewrite Forall_forall in Ht. apply Ht, (get_array_from s i v x Ev Hx). }
        unfold normal_step.
        match goal with |- ends _ (match ?o with _ => _ end) => assert (S : safely (I (i + 1)) o) end.
        { eapply safely_bind; [apply (safe_vertex p v 0 Hp ltac:(lia) Fv ltac:(lia))|]. intros v1 L1.
          eapply safely_bind; [apply (safe_vertex p v 1 Hp ltac:(lia) Fv ltac:(lia))|]. intros v2 L2.
          eapply safely_bind; [apply (safe_vertex p v 2 Hp ltac:(lia) Fv ltac:(lia))|]. intros v3 L3.
          destruct (len3_items v1 L1) as (? & ? & ? & ->), (len3_items v2 L2) as (? & ? & ? & ->), (len3_items v3 L3) as (? & ? & ? & ->).
          apply (safely_bind (fun v => len v = 3)); [exact (eq_refl 3)|]. intros e1 F1.
          apply (safely_bind (fun v => len v = 3)); [exact (eq_refl 3)|]. intros e2 F2.
          destruct (len3_items e1 F1) as (? & ? & ? & ->), (len3_items e2 F2) as (? & ? & ? & ->).
          apply (safely_bind (fun v => len v = 3)); [exact (eq_refl 3)|]. intros n F3.
          assert (i * 3 + 3 <= count_ s * 3) by lia. rewrite (u32_small (i * 3 + 1)), (u32_small (i * 3 + 2)) by lia.
          apply (safely_bind (fun _ => True)); [apply safely_rd; lia|]. intros n0 _. eapply safely_bind; [apply safely_wr; lia|]. intros d1 D1; simpl in D1.
          apply (safely_bind (fun _ => True)); [apply safely_rd; lia|]. intros n1 _. eapply safely_bind; [apply safely_wr; lia|]. intros d2 D2; simpl in D2.
          apply (safely_bind (fun _ => True)); [apply safely_rd; lia|]. intros n2 _. eapply safely_bind; [apply safely_wr; lia|]. intros d3 D3; simpl in D3. split; cbn [fst snd]; [lia|]. intros X. rewrite u32_small by lia. lia. }
        match goal with |- ends _ (match ?o with _ => _ end) => destruct o as [st'|e|] end; [exact S|exact Logic.I|exact S].
      - split; [unfold st0; cbn [fst]; unfold createArray; rewrite len_replicate; lia|intros _; reflexivity]. }
    unfold forEach_v. replace (itemSize s =? 1) with false by (symmetry; apply Z.eqb_neq; lia). change (count s) with (count_ s).
    unfold mbind at 1. destruct (each (get_array s) (normal_step p) (count_ s) st0) as [[u|e|] [data m]]; [|exact Logic.I|exact G].
    cbn [ret obind]. destruct G as (G1 & _); cbn [fst] in G1.
    eapply safely_mono; [|apply safe_of; lia]. intros r Hr; exact (proj1 Hr).
  Qed.

  Theorem C154_valence : forall (d : Dataframe T) name_ k name, in_order d -> triangulates (df_get d "positions") (df_get d "indices") ->
    itemSize_ (df_get d "indices") <> 2 -> safely sound (valence_serie name_ d k name).
  Proof.
    intros d name_ k name Hd Ht H2. pose proof (in_order_get d Hd) as Hd'; clear Hd; rename Hd' into Hd. unfold valence_serie. destruct (negb (String.eqb name name_)); [exact sound_default|].
    destruct (Hd "positions") as [Hp _], (Hd "indices") as [Hi _]. set (p := df_get d "positions") in *. set (s := df_get d "indices") in *.
    destruct (sound_bounds p Hp) as (_ & P2 & P3 & P4 & _ & P6 & _). destruct (sound_bounds s Hi) as (B1 & B2 & B3 & B4 & B5 & B6 & _).
    cbv zeta. destruct (negb (isValid p) || negb (isValid s)); [exact sound_default|].
    change (count p) with (count_ p). set (st0 := createArray (count_ p) (n_of_Z 0)).
    unfold forEach_v. destruct (Z.eqb_spec (itemSize s) 1) as [|E1]; [exact Logic.I|]. change (count s) with (count_ s).
    assert (G : ends (fun ids => len ids = count_ p) (each (get_array s) valence_step (count_ s) st0)).
    { apply (each_ends (fun _ ids => len ids = count_ p)); [lia| |unfold st0, createArray; rewrite len_replicate; lia].
      intros i ids Hi' L. unfold mbind at 1, lift at 1. pose proof (safe_get_array s i Hi Hi') as Gv. destruct (get_array s i) as [v|e|] eqn:Ev; [|exact Logic.I|destruct Gv].
      cbn [safely] in Gv. assert (itemSize_ s <> 0) by (intros X; apply B5 in X; lia).
      unfold valence_step. assert (S : safely (fun ids => len ids = count_ p) (foldO (count_corner v) [0; 1; 2] ids)).
      { apply safely_foldO; [|exact L]. intros a j Hj La. unfold count_corner.
        destruct (rd_in_range v j) as (x & -> & E); [destruct Hj as [<-|[<-|[<-|[]]]]; lia|]. cbn [obind].
        unfold triangulates in Ht; rewrite Forall_forall in Ht. destruct (Ht x (get_array_from s i v x Ev (nth_error_In _ _ E))) as (z & Ez & Hz).
        unfold n_to_u64; rewrite Ez.
        replace ((0 <=? z) && (z <? two64)) with true by (symmetry; apply andb_true_iff; split; [apply Z.leb_le|apply Z.ltb_lt; unfold two64]; lia).
        cbn [obind]. apply (safely_bind (fun _ => True)); [apply safely_rd; lia|]. intros c _.
        eapply safely_mono; [|apply safely_wr; lia]. intros r Hr; simpl in Hr; lia. }
      destruct (foldO (count_corner v) [0; 1; 2] ids); [exact S|exact Logic.I|exact S]. }
    unfold mbind at 1. destruct (each (get_array s) valence_step (count_ s) st0) as [[u|e|] ids]; [|exact Logic.I|exact G].
    cbn [ret obind]. cbn [ends] in G. eapply safely_mono; [|apply safe_of; [lia|]]. { intros r Hr; exact (proj1 Hr). } lia.
  Qed.

  (** ** The manager *)
  Context {St : Type}.
  (** decomposers whose answer to [name] is defined *)
  Inductive answers (d : Dataframe T) (k : Z) (name : string) : decomposer T St -> Prop :=
  | a_base : answers d k name base_decomposer
  | a_components : (forall n i, leads d k name n i -> ~ too_short d n i) -> answers d k name Components
  | a_coordinates names_ : (3 <= length names_)%nat ->
      (forall i, (i < 3)%nat -> nth_error names_ i = Some name -> ~ too_short d "positions" i) -> answers d k name (Coordinates names_)
  | a_eigenvalues : name <> "" -> (forall n, count_ (df_get d n) * 9 < 4294967296) -> answers d k name EigenValues
  | a_eigenvectors : name <> "" -> (forall n, count_ (df_get d n) * 9 < 4294967296) -> answers d k name EigenVectors
  | a_normals name_ : triangulates (df_get d "positions") (df_get d "indices") -> answers d k name (Normals name_)
  | a_valence name_ : triangulates (df_get d "positions") (df_get d "indices") -> itemSize_ (df_get d "indices") <> 2 ->
      answers d k name (Valence name_)
  | a_user size name_ cb : (forall st, safely sound (fst (cb d st))) -> answers d k name (UserDefined size name_ cb).
  (** decomposers whose list of names is defined *)
  Inductive lists (d : Dataframe T) : decomposer T St -> Prop :=
  | n_base : lists d base_decomposer
  | n_components : lists d Components
  | n_coordinates names_ : lists d (Coordinates names_)
  | n_eigenvalues : lists d EigenValues
  | n_eigenvectors : lists d EigenVectors
  | n_normals name_ : lists d (Normals name_)
  | n_area name_ : lists d (Area name_)
  | n_valence name_ : lists d (Valence name_)
  | n_user size name_ cb : (forall st, fst (cb d st) <> UB) -> lists d (UserDefined size name_ cb).

  Theorem C154_request : forall (d : Dataframe T) (ds : list (decomposer T St)) k name, in_order d -> 1 <= k ->
    Forall (answers d k name) ds -> forall st, safely sound (fst (manager_serie d ds k name st)).
  Proof.
    intros d ds k name Hd Hk Hds. change (safelyM (St := St) sound (manager_serie d ds k name)). unfold manager_serie.
    apply (safelyM_bind (fun o => match o with Some s => sound s | None => True end)).
    - apply safelyM_lift. unfold in_order in Hd. induction (df_series d) as [|[n [a s]] l IH]; [exact I|]. inversion Hd as [|? ? [A _] B]; subst. cbn [snd] in A.
      cbn [stored_serie]. destruct (sound_bounds s A) as (B1 & _ & _ & B4 & _ & B6 & _).
      destruct (Z.eqb_spec (itemSize s) k) as [E|]; cbn [andb]; [|exact (IH B)]. destruct (String.eqb name n); [|exact (IH B)].
      unfold clone. eapply safely_bind; [apply safe_of; lia|]. intros r Hr; exact (proj1 Hr).
    - intros [s|] Hs; [apply safelyM_ret; exact Hs|].
      induction Hds as [|dec ds Hdec Hds IH]; [apply safelyM_ret; exact sound_default|]. cbn [first_valid].
      apply (safelyM_bind sound); [|intros s Hs'; destruct (isValid s); [apply safelyM_ret; exact Hs'|exact IH]].
      destruct Hdec; cbn [d_serie Components Coordinates EigenValues EigenVectors Normals Valence UserDefined base_decomposer].
      + apply safelyM_ret; exact sound_default.
      + apply safelyM_lift. destruct (C154_components d k name Hd) as [A B]. apply B. rewrite A. intros (_ & n & i & X & Y). exact (H0 n i X Y).
      + apply safelyM_lift. destruct (C154_coordinates d names_ k name Hd H0) as [A B]. apply B. rewrite A. intros (_ & i & X & Y & _ & Z0). exact (H1 i X Y Z0).
      + apply safelyM_lift. destruct (C154_eigen d k name Hd H1) as [[A B] _]. apply B. rewrite A. intros [_ X]; contradiction.
      + apply safelyM_lift. destruct (C154_eigen d k name Hd H1) as [_ [A B]]. apply B. rewrite A. intros [_ X]; contradiction.
      + apply safelyM_lift, C154_normals; assumption.
      + apply safelyM_lift, C154_valence; assumption.
      + destruct (_ || _); [apply safelyM_ret; exact sound_default|exact H0].
  Qed.

  Theorem C154_names : forall (d : Dataframe T) (ds : list (decomposer T St)) dim k, Forall (lists d) ds ->
    (forall st, fst (manager_names d ds dim k st) <> UB) /\ (forall name st, fst (manager_contains d ds dim k name st) <> UB).
  Proof.
    intros d ds dim k Hds.
    assert (G : safelyM (St := St) (fun _ => True) (manager_names d ds dim k)).
    { unfold manager_names. apply safelyM_foldM; [|exact I]. intros names [n [a s]] _ _. cbv zeta. apply safelyM_foldM; [|exact I].
      intros l dec Hin _. rewrite Forall_forall in Hds. specialize (Hds dec Hin).
      apply (safelyM_bind (fun _ => True)); [|intros; apply safelyM_ret; exact I].
      destruct Hds; cbn [d_names Components Coordinates EigenValues EigenVectors Normals Area Valence UserDefined base_decomposer]; try (apply safelyM_ret; exact I).
      destruct (negb (k =? size)); [apply safelyM_ret; exact I|].
      apply (safelyM_bind (fun _ => True)); [intros st; apply safely_any, H0|]. intros r _. destruct (isValid r); apply safelyM_ret; exact I. }
    split; [intros st; exact (safely_ub _ _ (G st))|].
    intros name st. apply (safely_ub (fun _ => True)). revert st. change (safelyM (St := St) (fun _ => True) (manager_contains d ds dim k name)).
    unfold manager_contains. eapply safelyM_bind; [exact G|]. intros; apply safelyM_ret; exact I.
  Qed.

  (** ** Dataframes built from sound Series *)
  Definition fits (d : Dataframe T) (c : dcall T) : Prop :=
    match c with
    | DAdd _ _ s | DSet _ _ s => sound s
    | DCreate _ _ k n => 1 <= k < 2147483648 /\ 0 <= n /\ n * k < 4294967296
    | DModify _ _ f => forall s, sound s -> dimension_ s = 3 -> sound (f s) /\ dimension_ (f s) = 3
    | DSetCount n => Forall (fun e => n * itemSize_ (snd (snd e)) < 4294967296 /\ 1 <= itemSize_ (snd (snd e))) (df_series d)
    | _ => True
    end.
  Inductive built : Dataframe T -> Prop :=
  | built_new c : built (df_new c)
  | built_call d c : built d -> fits d c -> built (dstep d c).
  Theorem C154_built : forall d, built d -> in_order d.
  Proof.
    intros d Hd; induction Hd as [c|d c Hd IH Hf]; [constructor|]. unfold in_order in *.
    pose (Q := fun e : entry T => sound (snd (snd e)) /\ dimension_ (snd (snd e)) = 3). fold Q in IH |- *.
    assert (AT : forall a n m, Forall Q m -> Forall Q (map_at a n m)).
    { intros a n m Hm; induction Hm as [|e m He Hm IHm]; cbn [map_at].
      - constructor; [split; [exact sound_default|reflexivity]|constructor].
      - destruct (String.compare n (fst e)); [constructor; assumption|constructor; [split; [exact sound_default|reflexivity]|constructor; assumption]|constructor; assumption]. }
    assert (MOD : forall n f m, (forall s, sound s -> dimension_ s = 3 -> sound (f s) /\ dimension_ (f s) = 3) -> Forall Q m -> Forall Q (map_modify n f m)).
    { intros n f m Hf' Hm; induction Hm as [|[k [a s]] m He Hm IHm]; cbn [map_modify]; [constructor|].
      destruct (String.eqb k n); constructor; try assumption. destruct He as [A B]. exact (Hf' s A B). }
    assert (ADD : forall a n s, sound s -> Forall Q (df_series (df_add a d n s))).
    { intros a n s Hs; unfold df_add; cbn [df_series]. apply MOD; [|apply AT; exact IH].
      intros t _ Ht; unfold serie_assign; destruct s; cbn in *; split; [exact Hs|exact Ht]. }
    destruct c as [a n s|a n s|a n k m|n| |a n|a n f|m]; cbn [dstep fits] in *.
    - apply ADD, Hf.
    - apply ADD, Hf.
    - unfold df_create. apply ADD. rewrite s32_small by lia. apply sound_n; lia.
    - unfold df_del. destruct (map_find n (df_series d)); [|exact IH]. cbn [df_series]. clear - IH.
      induction IH as [|[k c] m He Hm IHm]; cbn [map_erase]; [constructor|]. destruct (String.eqb k n); [exact Hm|constructor; assumption].
    - constructor.
    - apply AT, IH.
    - apply MOD; [exact Hf|apply AT, IH].
    - unfold df_setCount. destruct (negb (df_count d =? m) && (0 <? m)) eqn:E; [|exact IH]. cbn [df_series].
      apply andb_true_iff in E as [_ E]. apply Z.ltb_lt in E.
      apply Forall_map. rewrite Forall_forall in IH, Hf |- *. intros e He; destruct (IH e He) as [A B], (Hf e He) as [C D]. cbn [snd].
      destruct (sound_bounds _ A) as (B1 & _). split; [|exact B].
      assert (0 <= m * itemSize_ (snd (snd e))) by nia.
      right; unfold reCount; cbn [s_ count_ itemSize_]. rewrite u32_small by lia. rewrite len_replicate by lia. lia.
  Qed.
End Ask.

(** ** Examples *)
Section Examples.
  Context {T : Type} `{Num T}.
  (** a vector, a scalar and a symmetric matrix *)
  Definition three (x y z : T) : Dataframe T :=
    drun [DAdd 1 "U" (mk 3 [[x; y; z]; [z; y; x]] 3); DAdd 2 "m" (mk 1 [[x]; [y]] 3); DAdd 3 "S" (mk 6 [[x; y; z; x; y; z]; [z; z; z; y; y; y]] 3)] (df_new 0).

  Example C154_ex : forall x y z : T,
    let d := three x y z in let ask n := run (manager_serie d [Components; EigenValues; Coordinates ["a"; "b"; "c"]] 1 n) in
    built d /\ in_order d /\
    (** defined, by the theorem: *)
    Forall (answers (St := unit) d 1 "Uz") [Components; EigenValues; Coordinates ["a"; "b"; "c"]] /\
    ask "Uz" = Ok (mk 1 [[z]; [x]] 3) /\
    (** nothing of that name: *)
    (forall i, ~ leads d 1 "Vz" "V" i) /\ ask "Vz" = Ok serie_default /\
    (** undefined, by the theorem: *)
    leads d 1 "mz" "m" 2 /\ too_short d "m" 2 /\ ask "mz" = UB /\
    leads d 1 "Szy" "S" 7 /\ too_short d "S" 7 /\ ask "Szy" = UB /\
    leads d 1 "Uxx" "U" 0 /\ ask "Uyy" = UB /\ ask "m0" = Ok (mk 1 [[x]; [y]] 3).
  Proof.
    intros x y z d ask.
    assert (B : built d).
    { assert (S : forall k l n d, 1 <= k < 2147483648 -> 0 <= n -> n * k <= len l < n * k + k -> len l < 4294967296 ->
              sound (T := T) {| s_ := l; count_ := n; dimension_ := d; itemSize_ := k |}) by (intros; right; simpl; lia).
      unfold d, three, drun; cbn [fold_left].
      repeat (apply built_call; [|apply S; unfold len; cbn [concat app length]; lia]). apply built_new. }
    assert (L : forall n c i, In (c, i) vector_layout -> "Uz" = n +++ c -> n = "U" /\ i = 2%nat).
    { intros n c i Hi E. repeat (destruct Hi as [Hi|Hi]; [injection Hi as <- <-; destruct n as [|? [|? [|? n]]]; try discriminate E; injection E as -> ; auto|]); try destruct Hi. }
    split; [exact B|]. split; [exact (C154_built d B)|]. split.
    { apply Forall_cons; [|apply Forall_cons; [|apply Forall_cons; [|apply Forall_nil]]].
      - apply a_components. intros n i Hl [A _]. destruct Hl as [n c i E Hc _|n c i N E Hc V|n _ E _].
        + destruct (L n c i Hc E) as [-> ->]. cbv in A; apply A; reflexivity.
        + apply (N "U" "z" 2%nat eq_refl); [cbn; tauto|]. unfold nonempty; cbn; lia.
        + destruct n as [|? [|? [|? n]]]; discriminate E.
      - apply a_eigenvalues; [discriminate|]. intros n. unfold df_get.
        change (df_series d) with [("S", (3, mk 6 [[x; y; z; x; y; z]; [z; z; z; y; y; y]] 3)); ("U", (1, mk 3 [[x; y; z]; [z; y; x]] 3)); ("m", (2, mk 1 [[x]; [y]] 3))].
        cbn [map_find]. repeat (destruct (String.eqb _ n); [exact (eq_refl Lt)|]). exact (eq_refl Lt).
      - apply a_coordinates; [cbn; lia|]. intros i Hi E. destruct i as [|[|[|i]]]; try discriminate E. lia. }
    split; [reflexivity|]. split.
    { intros i Hl. destruct Hl as [n c i E Hc V|n c i N E Hc V|n _ E V]; unfold nonempty in V;
        destruct n as [|? [|? [|? n]]]; try discriminate E; try (injection E as <- ; cbn in V; lia).
      all: repeat (destruct Hc as [Hc|Hc]; [injection Hc as <- <-; try discriminate E; injection E as <-; cbn in V; lia|]); try destruct Hc. }
    split; [reflexivity|].
    assert (Z0 : forall n c i, In (c, i) vector_layout -> "Szy" = n +++ c -> n = "Sz").
    { intros n c i Hi E. repeat (destruct Hi as [Hi|Hi]; [injection Hi as <- <-; destruct n as [|? [|? [|? [|? n]]]]; try discriminate E; injection E as -> ->; reflexivity|]); try destruct Hi. }
    split; [apply (lead_letter d 1 "mz" "m" "z" 2); [reflexivity|cbn; tauto|unfold nonempty; cbn; lia]|].
    split; [split; [cbv; discriminate|reflexivity]|]. split; [reflexivity|].
    split; [apply (lead_entry d 1 "Szy" "S" "zy" 7); [|reflexivity|cbn; tauto|unfold nonempty; cbn; lia]|].
    { intros n c i E Hi. rewrite (Z0 n c i Hi E). unfold nonempty; cbn; lia. }
    split; [split; [cbv; discriminate|reflexivity]|]. split; [reflexivity|]. split; [|split; reflexivity].
    apply (lead_entry d 1 "Uxx" "U" "xx" 0); [|reflexivity|cbn; tauto|unfold nonempty; cbn; lia].
    intros n c i E Hi V. unfold nonempty in V.
    repeat (destruct Hi as [Hi|Hi]; [injection Hi as <- <-; destruct n as [|? [|? [|? [|? n]]]]; try discriminate E; injection E as <- <-; exact (V eq_refl)|]); try destruct Hi.
  Qed.
End Examples.

Print Assumptions C154_components.
Print Assumptions C154_coordinates.
Print Assumptions C154_eigen.
Print Assumptions C154_normals.
Print Assumptions C154_valence.
Print Assumptions C154_request.
Print Assumptions C154_names.
Print Assumptions C154_built.
