(** * C95: every advertised name resolves. *)
From Verif Require Import Base Num Serie Functional Spec BaseFacts SerieFacts FunctionalFacts MathFacts MinMaxFacts AlgebraFacts F64 Geo Eigen Dataframe Attributes.
From Verif Require Import Props_Serie Props_Functional Props_Dataframe Props_Geo Props_Manager Props_Components Props_Mesh.
From Coq Require Import Sorting.Sorted.
From Coq Require String Ascii.
Import String.StringSyntax.
Local Open Scope string_scope.
Local Open Scope list_scope.
Open Scope Z_scope.
Opaque f64_of_Z.

(** ** Specification *)
Section Spec.
  Context {T St : Type} {NT : Num T}.
  (** the names are listed, and each gives a valid Serie of that item size *)
  Definition all_resolve (d : Dataframe T) (ds : list (decomposer T St)) (k : Z) : Prop :=
    forall st, exists l, manager_names d ds 3 k st = (Ok l, st) /\
      forall n, In n l -> exists s, manager_serie d ds k n st = (Ok s, st) /\ isValid s = true /\ itemSize s = k.
  (** every stored Serie has items, and no name is another one followed by a component letter *)
  Record tidy (d : Dataframe T) : Prop := {
    td_reachable : reachable d;
    td_items : forall n a s, map_find n (df_series d) = Some (a, s) -> exists k rows, repr s k rows /\ 1 <= k /\ rows <> [] /\ len (asArray s) < k * len rows + k;
    td_names : forall n, df_contains_name d n = true -> no_prefix_clash d n }.
  (** the stored mesh *)
  Definition mesh (d : Dataframe T) (ps : list (list T)) (ts : list tri) : Prop :=
    repr (df_get d "positions") 3 ps /\ ps <> [] /\ repr (df_get d "indices") 3 (map num_row ts) /\ Forall (tri_in (length ps)) ts.
  (** no stored name is the beginning of [n] *)
  Definition unrelated (d : Dataframe T) (n : string) : Prop := forall b c, df_contains_name d b = true -> n <> b +++ c.
End Spec.

Section Resolve.
  Context {T St : Type} {NT : Num T}.
  Notation dec := (decomposer T St).

  Definition gives (q : dec) (d : Dataframe T) (k : Z) (n : string) : Prop :=
    exists s, (forall st, d_serie q d k n st = (Ok s, st)) /\ isValid s = true /\ itemSize s = k.
  Definition quiet (q : dec) (d : Dataframe T) (k : Z) (n : string) : Prop :=
    exists s, (forall st, d_serie q d k n st = (Ok s, st)) /\ isValid s = false.
  Fixpoint resolves (ds : list dec) (d : Dataframe T) (k : Z) (n : string) : Prop :=
    match ds with [] => False | q :: r => gives q d k n \/ quiet q d k n /\ resolves r d k n end.

  Lemma first_valid_resolves (ds : list dec) d k n st : resolves ds d k n -> exists s, first_valid ds d k n st = (Ok s, st) /\ isValid s = true /\ itemSize s = k.
  Proof.
    induction ds as [|q ds IH]; cbn [resolves]; [intros []|]; intros [(s & E & V & K)|((s & E & V) & R)]; cbn [first_valid]; unfold mbind; rewrite E, V.
    - exists s; split; [reflexivity|split; assumption].
    - apply IH; exact R.
  Qed.
  Lemma stored_or_not (d : Dataframe T) (ds : list dec) k n st : tidy d -> 1 <= k -> (not_stored d k n -> resolves ds d k n) ->
    exists s, manager_serie d ds k n st = (Ok s, st) /\ isValid s = true /\ itemSize s = k.
  Proof.
    intros Ht Hk Hr; pose proof (reachable_ordered d (td_reachable d Ht)) as Ho; destruct (map_find n (df_series d)) as [[a s]|] eqn:F.
    - destruct (td_items d Ht n a s F) as (k1 & rows & Hs & Hk1 & Hne & Hl); destruct (Z.eq_dec k1 k) as [->|Hd].
      + destruct (C93_stored_partial d ds k n a s rows st Ho F Hk Hs Hl) as (c & E & Hc); exists c; split; [exact E|].
        split; [rewrite (isValid_repr _ _ _ Hc); apply Z.ltb_lt; lia|apply (repr_itemSize _ _ _ Hc)].
      + assert (N : not_stored d k n) by (intros c Hc; rewrite F in Hc; injection Hc as <-; cbn [snd]; rewrite (repr_itemSize _ _ _ Hs); exact Hd).
        rewrite (not_stored_first d ds k n st Ho N); apply first_valid_resolves, Hr, N.
    - assert (N : not_stored d k n) by (intros c Hc; rewrite F in Hc; discriminate Hc).
      rewrite (not_stored_first d ds k n st Ho N); apply first_valid_resolves, Hr, N.
  Qed.

  Lemma calls_pure {A B} (f : A -> Z -> M St B) qs : (forall q, In q qs -> exists y, forall i st, f q i st = (Ok y, st)) ->
    forall i st, exists ys, calls f (enum_from i qs) st ys st /\ forall y, In y ys -> exists q, In q qs /\ forall i st, f q i st = (Ok y, st).
  Proof.
    induction qs as [|q qs IH]; intros H i st; cbn [enum_from]; [exists []; split; [constructor|intros y []]|].
    destruct (H q (or_introl eq_refl)) as (y & E); destruct (IH (fun q' Hq => H q' (or_intror Hq)) (i + 1) st) as (ys & C & I).
    exists (y :: ys); split; [econstructor; [apply E|exact C]|].
    intros y' [<-|Hy]; [exists q; split; [left; reflexivity|exact E]|]; destruct (I y' Hy) as (q' & Hq & E'); exists q'; split; [right; exact Hq|exact E'].
  Qed.

  (** decomposers without effects, each resolving what it lists after the ones before it passed *)
  Lemma all_resolve_generic (d : Dataframe T) (ds : list dec) k : tidy d -> 1 <= k ->
    (forall q n a s, In q ds -> map_find n (df_series d) = Some (a, s) ->
       exists l, (forall st, d_names q d k (a, s) n st = (Ok l, st)) /\ forall n', In n' l -> not_stored d k n' -> resolves ds d k n') ->
    all_resolve d ds k.
  Proof.
    intros Ht Hk Hq st; pose proof (reachable_ordered d (td_reachable d Ht)) as Ho.
    destruct (calls_pure (ask d k) (questions (df_series d) ds)) with (i := 0) (st := st) as (ys & C & I).
    { intros [q [n [a s]]] Hin; unfold questions in Hin; apply in_flat_map in Hin; destruct Hin as (e & He & Hin); apply in_map_iff in Hin; destruct Hin as (q' & E & Hq'); injection E as <- ->.
      destruct (Hq q' n a s Hq' (in_find _ n (a, s) Ho He)) as (l & E & _); exists l; intros i st'; apply E. }
    destruct (C92_names d ds 3 k st ys st C) as (l & E & _ & L & _); exists l; split; [exact E|].
    intros n Hn; apply L in Hn; apply stored_or_not; [exact Ht|exact Hk|]; intros Hns; destruct Hn as [(a & s & Hin & Hs & _)|Hn].
    - exfalso; exact (Hns (a, s) (in_find _ n (a, s) Ho Hin) Hs).
    - apply Exists_exists in Hn; destruct Hn as (y & Hy & Hny); destruct (I y Hy) as ([q [n' [a s]]] & Hin & Ey).
      unfold questions in Hin; apply in_flat_map in Hin; destruct Hin as (e & He & Hin); apply in_map_iff in Hin; destruct Hin as (q' & Eq & Hq'); injection Eq as -> ->.
      destruct (Hq q n' a s Hq' (in_find _ n' (a, s) Ho He)) as (l' & El & R); apply R; [|exact Hns].
      specialize (El st); specialize (Ey 0 st); unfold ask in Ey; cbn [fst snd] in Ey; rewrite El in Ey; injection Ey as ->; exact Hny.
  Qed.

  Lemma delivers_valid (o : outcome (Serie T)) i rows : delivers o i rows -> exists s, o = Ok s /\ isValid s = true /\ itemSize s = 1.
  Proof. intros (xs & -> & _); exists (mk 1 (col xs) 3); repeat split. Qed.

  Lemma coordinates_two (nx ny nz : string) (d : Dataframe T) rows n : repr (df_get d "positions") 3 rows -> rows <> [] ->
    (In n [nx; ny; nz] -> gives (Coordinates [nx; ny; nz]) d 1 n) /\ (~ In n [nx; ny; nz] -> quiet (Coordinates [nx; ny; nz]) d 1 n).
  Proof.
    intros Hp Hne; unfold gives, quiet, Coordinates; cbn [d_serie]; unfold lift.
    assert (U : coordinates_serie [nx; ny; nz] d 1 n = if String.eqb n nx then component 0 (df_get d "positions") else if String.eqb n ny then component 1 (df_get d "positions")
      else if String.eqb n nz then component 2 (df_get d "positions") else Ok serie_default) by reflexivity.
    rewrite U; cbn [In]; split; intros Hin.
    - destruct (String.eqb_spec n nx) as [|Hx]; [destruct (delivers_valid _ _ _ (component_ok _ 3 rows 0 Hp Hne ltac:(lia))) as (s & E & R); exists s; split; [intros st; rewrite <- E; reflexivity|exact R]|].
      destruct (String.eqb_spec n ny) as [|Hy]; [destruct (delivers_valid _ _ _ (component_ok _ 3 rows 1 Hp Hne ltac:(lia))) as (s & E & R); exists s; split; [intros st; rewrite <- E; reflexivity|exact R]|].
      destruct (String.eqb_spec n nz) as [|Hz]; [destruct (delivers_valid _ _ _ (component_ok _ 3 rows 2 Hp Hne ltac:(lia))) as (s & E & R); exists s; split; [intros st; rewrite <- E; reflexivity|exact R]|].
      exfalso; intuition congruence.
    - destruct (String.eqb_spec n nx); [subst; tauto|]; destruct (String.eqb_spec n ny); [subst; tauto|]; destruct (String.eqb_spec n nz); [subst; tauto|].
      exists serie_default; split; reflexivity.
  Qed.

  (** names ending in 0 are no entries of matrices *)
  Lemma index_of_none name m l : (forall x, In x l -> name <> m +++ x) -> forall i, index_of name m l i = None.
  Proof. induction l as [|x l IH]; intros H i; cbn [index_of]; [reflexivity|]; destruct (String.eqb_spec name (m +++ x)) as [E|_]; [exfalso; exact (H x (or_introl eq_refl) E)|apply IH; intros y Hy; apply H; right; exact Hy]. Qed.
  Lemma ends_in_0 n m x y : n +++ "0" <> m +++ (String.String x (String.String y "")) \/ y = Ascii.ascii_of_nat 48.
  Proof.
    destruct (Ascii.ascii_dec y (Ascii.ascii_of_nat 48)) as [->|Hy]; [right; reflexivity|left; intros E].
    pose proof (get_last n (Ascii.ascii_of_nat 48)) as G1; pose proof (get_last (m +++ String.String x "") y) as G2; rewrite append_assoc in G2; cbn [String.append] in G2.
    change (String.String (Ascii.ascii_of_nat 48) "") with "0" in G1; rewrite E, G2 in G1; injection G1 as ->; apply Hy; reflexivity.
  Qed.

  Lemma get_find (d : Dataframe T) n a s : map_find n (df_series d) = Some (a, s) -> df_get d n = s.
  Proof. intros F; unfold df_get; rewrite F; reflexivity. Qed.

  Lemma components_resolve (d : Dataframe T) n a s n' : tidy d -> map_find n (df_series d) = Some (a, s) -> In n' (components_names d 1 (a, s) n) ->
    (exists c, n' = n +++ c) /\ gives Components d 1 n'.
  Proof.
    intros Ht F Hin; pose proof (td_reachable d Ht) as Hd; destruct (td_items d Ht n a s F) as (k & rows & Hs & Hk & Hne & _).
    assert (Hn : no_prefix_clash d n) by (apply (td_names d Ht); unfold df_contains_name; rewrite F; reflexivity).
    pose proof (get_find d n a s F) as G; assert (Dm : dimension s = 3) by (rewrite <- G; apply reachable_dim; exact Hd); rewrite <- G in Hs.
    assert (W : forall i o, delivers o i rows -> forall m, components_serie d 1 m = o -> gives Components d 1 m).
    { intros i o Ho m <-; destruct (delivers_valid _ _ _ Ho) as (r & E & R); exists r; split; [|exact R]; intros st; unfold Components; cbn [d_serie]; unfold lift; rewrite E; reflexivity. }
    unfold components_names in Hin; rewrite Dm, <- G, (repr_itemSize _ _ _ Hs) in Hin.
    destruct (String.eqb n "positions" || String.eqb n "indices"); [destruct Hin|]; destruct (String.eqb n (nameOfSerie d a) && (k =? 1)); [destruct Hin|].
    cbn [Z.ltb Z.compare Z.eqb Pos.eqb] in Hin.
    destruct (Z.eqb_spec k 3) as [E3|N3]; [subst k|destruct (Z.eqb_spec k 6) as [E6|N6]; [subst k|destruct (Z.eqb_spec k 9) as [E9|N9]; [subst k|]]].
    - apply in_map_iff in Hin; destruct Hin as (c & <- & Hc); split; [exists c; reflexivity|].
      destruct Hc as [<-|[<-|[<-|[]]]]; eapply W; try reflexivity; eapply C94_vector; try eassumption; cbn; tauto.
    - apply in_map_iff in Hin; destruct Hin as (c & <- & Hc); split; [exists c; reflexivity|].
      destruct Hc as [<-|[<-|[<-|[<-|[<-|[<-|[]]]]]]]; eapply W; try reflexivity; eapply C94_symmetric_partial; try eassumption; cbn; tauto.
    - apply in_map_iff in Hin; destruct Hin as (c & <- & Hc); split; [exists c; reflexivity|].
      destruct Hc as [<-|[<-|[<-|[<-|[<-|[<-|[<-|[<-|[<-|[]]]]]]]]]];
        (eapply W; [|reflexivity]); try (eapply C94_full_partial; try eassumption; [cbn; tauto|cbn; intuition discriminate]); eapply C94_full_wrong; try eassumption; cbn; tauto.
    - change (iota 1) with [0] in Hin; cbn [map] in Hin; change (to_string 0) with "0" in Hin; destruct Hin as [<-|[]]; split; [exists "0"; reflexivity|].
      eapply (W 0%nat); [apply (component_ok (df_get d n) k rows 0 Hs Hne); lia|].
      unfold components_serie; cbn [Z.ltb Z.compare]; rewrite (chop_append 1 n "0" eq_refl); cbv zeta.
      rewrite (isValid_repr _ _ _ (repr_copy _ _ _ Hs)), (isValid_repr _ _ _ (repr_assign _ _ _ _ Hs)); destruct (Z.ltb_spec 0 k); [|lia].
      change (dimension (serie_copy (df_get d n))) with (dimension (df_get d n)); rewrite G, Dm; cbn [Z.eqb Pos.eqb].
      rewrite index_of_prefix; change (index_of "0" "" vector3Names 0) with (@None Z).
      change (dimension (serie_assign (serie_copy s) (df_get d (chop 2 (n +++ "0"))))) with (dimension s); rewrite Dm; cbn [Z.eqb Pos.eqb].
      assert (X : forall l, (forall x, In x l -> In x matrix3Names) -> index_of (n +++ "0") (chop 2 (n +++ "0")) l 0 = None).
      { intros l Hl; apply index_of_none; intros x Hx E; apply Hl in Hx.
        repeat (destruct Hx as [<-|Hx]; [match type of E with _ = _ +++ String.String ?u (String.String ?v "") => destruct (ends_in_0 n (chop 2 (n +++ "0")) u v) as [X|X] end; [exact (X E)|discriminate X]|]); destruct Hx. }
      rewrite (X smatrix3Names), (X matrix3Names) by (cbn; tauto); cbn [or_else]; destruct (isValid (serie_assign (serie_copy s) (df_get d (chop 2 (n +++ "0"))))).
      all: rewrite index_of_prefix; change (index_of "0" "" (map to_string (iota 1)) 0) with (Some 0).
      all: unfold component; f_equal; unfold serie_assign; destruct s as [a1 a2 a3 a4]; cbn in *; subst; reflexivity.
  Qed.
End Resolve.

(** ** C95 *)
Lemma mesh_corners {T} {NT : Num T} (d : Dataframe T) ps (ts : list tri) : exact_counts NT -> mesh d ps ts ->
  exists pqrs, Forall2 (has_corners (df_get d "positions")) (map num_row ts) pqrs.
Proof.
  intros EC (Hp & _ & _ & Ht); assert (Hb : len ps < 4294967296) by apply Hp; unfold len in Hb.
  pose proof (repr_rows _ _ _ Hp) as Rr; unfold rows_of_size in Rr; rewrite Forall_forall in Rr.
  assert (V : forall t i j, (j < length ps)%nat -> rd t i = Ok (n_of_Z (Z.of_nat j)) -> exists p, vertex (df_get d "positions") t i = Ok p /\ len p = 3).
  { intros t i j Hj Ht'; exists (nth j ps []); split; [|apply Rr, nth_In; exact Hj]; unfold vertex; rewrite Ht'; cbn [obind].
    assert (U : n_to_u32 (n_of_Z (Z.of_nat j) : T) = Ok (Z.of_nat j)).
    { pose proof (ec_index NT EC (Z.of_nat j) ltac:(lia)) as E; unfold n_to_u64 in E; unfold n_to_u32; destruct (n_to_Z (n_of_Z (Z.of_nat j))) as [z|]; [|discriminate].
      destruct ((0 <=? z) && (z <? two64)); [|discriminate]; injection E as ->.
      replace ((0 <=? Z.of_nat j) && (Z.of_nat j <? two32)) with true; [reflexivity|]; symmetry; apply andb_true_intro; split; [apply Z.leb_le; lia|apply Z.ltb_lt; unfold two32; lia]. }
    rewrite U; cbn [obind]; apply (value_nth _ 3 ps j _ Hp), nth_error_nth'; exact Hj. }
  clear Hp Hb Rr; induction Ht as [|[[i j] k] ts (H1 & H2 & H3) _ (pqrs & IH)]; [exists []; constructor|].
  destruct (V (num_row (i, j, k)) 0 i H1 eq_refl) as (p & Ep & Lp); destruct (V (num_row (i, j, k)) 1 j H2 eq_refl) as (q & Eq & Lq); destruct (V (num_row (i, j, k)) 2 k H3 eq_refl) as (r & Er & Lr).
  exists ((p, q, r) :: pqrs); cbn [map]; constructor; [|exact IH]; cbn [has_corners]; repeat split; assumption.
Qed.

(** names of normals and valence that are not related to any other name *)
Theorem C95_partial :
  forall {T St : Type} {NT : Num T} (d : Dataframe T) ps ts (nn vn nx ny nz : string) k, exact_counts NT ->
  tidy d -> mesh d ps ts -> unrelated d nn -> unrelated d vn -> nn <> vn -> ~ In nn [nx; ny; nz] -> ~ In vn [nx; ny; nz] -> 1 <= k ->
  all_resolve (St := St) d [Normals nn; Valence vn; Coordinates [nx; ny; nz]; Components] k.
Proof.
  intros T St NT d ps ts nn vn nx ny nz k EC Ht Hm Un Uv Hnv Hn Hv Hk; apply all_resolve_generic; [exact Ht|exact Hk|].
  pose proof Hm as (Hp & Hne & Hi & Hin).
  assert (QN : forall k n, n <> nn -> quiet (St := St) (Normals nn) d k n).
  { intros k' n Hd; exists serie_default; split; [|reflexivity]; intros st; unfold Normals, normals_serie, lift; cbn [d_serie]; destruct (String.eqb_spec n nn); [contradiction|reflexivity]. }
  assert (QV : forall k n, n <> vn -> quiet (St := St) (Valence vn) d k n).
  { intros k' n Hd; exists serie_default; split; [|reflexivity]; intros st; unfold Valence, valence_serie, lift; cbn [d_serie]; destruct (String.eqb_spec n vn); [contradiction|reflexivity]. }
  assert (GN : gives (St := St) (Normals nn) d 3 nn).
  { destruct (mesh_corners d ps ts EC Hm) as (pqrs & Hc); exists (mk 3 (map normal_at pqrs) 3); split; [|split; reflexivity].
    intros st; unfold Normals, normals_serie, lift; cbn [d_serie]; rewrite String.eqb_refl; cbn [negb]; rewrite (normals_ok _ _ ps _ pqrs Hp Hi Hc); reflexivity. }
  assert (GV : gives (St := St) (Valence vn) d 1 vn).
  { destruct (C98_valence d vn 1 3 ps ts EC Hp ltac:(lia) Hi Hin) as (ns & E & _); exists (mk 1 (col (map nat_num ns)) 3); split; [|split; reflexivity].
    intros st; unfold Valence, lift; cbn [d_serie]; rewrite E; reflexivity. }
  assert (RC : forall n, n <> nn -> n <> vn -> (In n [nx; ny; nz] \/ gives (St := St) Components d 1 n) -> resolves (St := St) [Normals nn; Valence vn; Coordinates [nx; ny; nz]; Components] d 1 n).
  { intros n H1 H2 H; cbn [resolves]; right; split; [apply QN, H1|]; right; split; [apply QV, H2|].
    destruct (coordinates_two (St := St) nx ny nz d ps n Hp Hne) as [C1 C2]; destruct (in_dec String.string_dec n [nx; ny; nz]) as [I|I]; [left; apply C1, I|].
    right; split; [apply C2, I|]; left; destruct H as [H|H]; [contradiction|exact H]. }
  intros q n a s [<-|[<-|[<-|[<-|[]]]]] F; unfold Normals at 1, Valence at 1, Coordinates at 1, Components at 1; cbn [d_names].
  - exists (mesh_names 3 nn d k); split; [reflexivity|]; intros n' Hn' _; unfold mesh_names in Hn'; destruct (Z.eqb_spec k 3) as [->|]; [|destruct Hn'].
    cbn [negb] in Hn'; destruct (negb _ && negb _); [destruct Hn'|]; destruct Hn' as [<-|[]]; cbn [resolves]; left; exact GN.
  - exists (mesh_names 1 vn d k); split; [reflexivity|]; intros n' Hn' _; unfold mesh_names in Hn'; destruct (Z.eqb_spec k 1) as [->|]; [|destruct Hn'].
    cbn [negb] in Hn'; destruct (negb _ && negb _); [destruct Hn'|]; destruct Hn' as [<-|[]]; cbn [resolves]; right; split; [apply QN; congruence|left; exact GV].
  - exists (coordinates_names [nx; ny; nz] k n); split; [reflexivity|]; intros n' Hn' _; unfold coordinates_names in Hn'; destruct (Z.eqb_spec k 1) as [->|]; [|destruct Hn'].
    cbn [negb orb] in Hn'; destruct (negb _); [destruct Hn'|]; apply RC; [intros ->; exact (Hn Hn')|intros ->; exact (Hv Hn')|left; exact Hn'].
  - exists (components_names d k (a, s) n); split; [reflexivity|]; intros n' Hn' _; destruct (Z.eq_dec k 1) as [->|Hk1].
    + destruct (components_resolve (St := St) d n a s n' Ht F Hn') as ((c & E) & G).
      assert (Hc : df_contains_name d n = true) by (unfold df_contains_name; rewrite F; reflexivity).
      apply RC; [rewrite E; intros X; exact (Un n c Hc (eq_sym X))|rewrite E; intros X; exact (Uv n c Hc (eq_sym X))|right; exact G].
    + exfalso; unfold components_names in Hn'; destruct (Z.ltb_spec 1 k); [|lia]; destruct (_ || _); [destruct Hn'|]; destruct (_ && _); destruct Hn'.
Qed.
Print Assumptions C95_partial.

(** without mesh: Coordinates and Components *)
Theorem C95_components_partial :
  forall {T St : Type} {NT : Num T} (d : Dataframe T) ps (nx ny nz : string) k,
  tidy d -> repr (df_get d "positions") 3 ps -> ps <> [] -> 1 <= k ->
  all_resolve (St := St) d [Coordinates [nx; ny; nz]; Components] k.
Proof.
  intros T St NT d ps nx ny nz k Ht Hp Hne Hk; apply all_resolve_generic; [exact Ht|exact Hk|].
  assert (RC : forall n, (In n [nx; ny; nz] \/ gives (St := St) Components d 1 n) -> resolves (St := St) [Coordinates [nx; ny; nz]; Components] d 1 n).
  { intros n H; cbn [resolves].
    destruct (coordinates_two (St := St) nx ny nz d ps n Hp Hne) as [C1 C2]; destruct (in_dec String.string_dec n [nx; ny; nz]) as [I|I]; [left; apply C1, I|].
    right; split; [apply C2, I|]; left; destruct H as [H|H]; [contradiction|exact H]. }
  intros q n a s [<-|[<-|[]]] F; unfold Coordinates at 1, Components at 1; cbn [d_names].
  - exists (coordinates_names [nx; ny; nz] k n); split; [reflexivity|]; intros n' Hn' _; unfold coordinates_names in Hn'; destruct (Z.eqb_spec k 1) as [->|]; [|destruct Hn'].
    cbn [negb orb] in Hn'; destruct (negb _); [destruct Hn'|]; apply RC; left; exact Hn'.
  - exists (components_names d k (a, s) n); split; [reflexivity|]; intros n' Hn' _; destruct (Z.eq_dec k 1) as [->|Hk1].
    + destruct (components_resolve (St := St) d n a s n' Ht F Hn') as (_ & G); apply RC; right; exact G.
    + exfalso; unfold components_names in Hn'; destruct (Z.ltb_spec 1 k); [|lia]; destruct (_ || _); [destruct Hn'|]; destruct (_ && _); destruct Hn'.
Qed.
Print Assumptions C95_components_partial.

#[local] Existing Instance F64N.
(** EigenValues lists S1, which does not resolve *)
Theorem C95_eigen_refuted :
  exists (d : Dataframe F64), tidy d /\ manager_names (St := unit) d [EigenValues] 3 1 tt = (Ok ["S1"; "S2"; "S3"], tt) /\
    exists s, manager_serie (St := unit) d [EigenValues] 1 "S1" tt = (Ok s, tt) /\ isValid s = false.
Proof.
  set (s := mk 6 [[#1; #2; #3; #4; #5; #6]] 3); exists (df_of [("S", s)]); split; [|split; [reflexivity|eexists; split; reflexivity]]; split.
  - apply df_of_reachable.
  - intros n a s' F; change (df_series (df_of [("S", s)])) with [("S", (0, s))] in F; cbn [map_find] in F; destruct (String.eqb_spec "S" n); [|discriminate F].
    injection F as <- <-; exists 6, [[#1; #2; #3; #4; #5; #6]]; split; [unfold s; repr_ex|split; [lia|split; [discriminate|reflexivity]]].
  - intros n F c Hc; unfold df_contains_name in *; change (df_series (df_of [("S", s)])) with [("S", (0, s))] in *; cbn [map_find] in *.
    destruct (String.eqb_spec "S" n) as [E|]; [|discriminate F]; rewrite <- E; clear F; destruct Hc as [<-|[<-|[<-|[]]]]; reflexivity.
Qed.
Print Assumptions C95_eigen_refuted.
(** Normals lists its name as soon as one of positions and indices is stored: the test reads and where or is meant *)
Theorem C95_mesh_refuted :
  exists (d : Dataframe F64), tidy d /\ manager_names (St := unit) d [Normals "n"] 3 3 tt = (Ok ["n"], tt) /\
    exists s, manager_serie (St := unit) d [Normals "n"] 3 "n" tt = (Ok s, tt) /\ isValid s = false.
Proof.
  set (s := mk 3 [[#1; #2; #3]] 3); exists (df_of [("positions", s)]); split; [|split; [reflexivity|eexists; split; reflexivity]]; split.
  - apply df_of_reachable.
  - intros n a s' F; change (df_series (df_of [("positions", s)])) with [("positions", (0, s))] in F; cbn [map_find] in F; destruct (String.eqb_spec "positions" n); [|discriminate F].
    injection F as <- <-; exists 3, [[#1; #2; #3]]; split; [unfold s; repr_ex|split; [lia|split; [discriminate|reflexivity]]].
  - intros n F c Hc; unfold df_contains_name in *; change (df_series (df_of [("positions", s)])) with [("positions", (0, s))] in *; cbn [map_find] in *.
    destruct (String.eqb_spec "positions" n) as [E|]; [|discriminate F]; rewrite <- E; clear F; destruct Hc as [<-|[<-|[<-|[]]]]; reflexivity.
Qed.
Print Assumptions C95_mesh_refuted.

Example C95_example :
  let ps := [[#0; #0; #0]; [#1; #0; #0]; [#0; #1; #0]] in let ts := [(0, 1, 2)]%nat in
  let d := drun [DAdd 1 "positions" (mk 3 ps 3); DAdd 2 "indices" (mk 3 (map num_row ts) 3); DAdd 3 "U" (mk 3 ps 3); DAdd 4 "S" (mk 6 [[#1; #2; #3; #4; #5; #6]] 3); DAdd 5 "w" (mk 1 (col [#4]) 3)] (df_new 0) in
  tidy d /\ mesh d ps ts /\ unrelated d "normal" /\ unrelated d "valence" /\
  manager_names (St := unit) d [Normals "normal"; Valence "valence"; Coordinates ["x"; "y"; "z"]; Components] 3 1 tt =
    (Ok ["Sxx"; "Sxy"; "Sxz"; "Syy"; "Syz"; "Szz"; "Ux"; "Uy"; "Uz"; "valence"; "w"; "x"; "y"; "z"], tt).
Proof.
  cbv zeta; set (ps := [[#0; #0; #0]; [#1; #0; #0]; [#0; #1; #0]]); set (ts := [(0, 1, 2)]%nat : list tri).
  match goal with |- tidy ?x /\ _ => set (d := x) end.
  assert (Rd : reachable d) by (eexists 0, _; split; [|reflexivity]; repeat constructor).
  set (S6 := mk 6 [[#1; #2; #3; #4; #5; #6]] 3).
  assert (Ed : df_series d = [("S", (4, S6)); ("U", (3, mk 3 ps 3)); ("indices", (2, mk 3 (map num_row ts) 3)); ("positions", (1, mk 3 ps 3)); ("w", (5, mk 1 (col [#4]) 3))]) by reflexivity.
  assert (Names : forall b, df_contains_name d b = true -> In b ["S"; "U"; "indices"; "positions"; "w"]).
  { intros b; unfold df_contains_name; rewrite Ed; cbn [map_find In].
    repeat match goal with |- context[String.eqb ?a b] => destruct (String.eqb_spec a b); [intros _; tauto|] end; discriminate. }
  assert (Hp : repr (mk 3 ps 3) 3 ps) by (unfold ps; repr_ex).
  assert (Hi : repr (mk 3 (map num_row ts) 3) 3 (map num_row ts)) by (unfold ts; cbn [map num_row]; repr_ex).
  assert (H6 : repr S6 6 [[#1; #2; #3; #4; #5; #6]]) by (unfold S6; repr_ex).
  assert (H1 : repr (mk 1 (col [#4]) 3) 1 (col [#4])) by repr_ex.
  split; [|split; [|split; [|split; [|reflexivity]]]].
  - split; [exact Rd| |].
    + intros n a s F; rewrite Ed in F; cbn [map_find] in F.
      repeat match type of F with (if ?b then _ else _) = _ => destruct b; [injection F as <- <-|] end; [| | | | |discriminate F].
      * exists 6, [[#1; #2; #3; #4; #5; #6]]; split; [exact H6|split; [lia|split; [discriminate|reflexivity]]].
      * exists 3, ps; split; [exact Hp|split; [lia|split; [discriminate|reflexivity]]].
      * exists 3, (map num_row ts); split; [exact Hi|split; [lia|split; [discriminate|reflexivity]]].
      * exists 3, ps; split; [exact Hp|split; [lia|split; [discriminate|reflexivity]]].
      * exists 1, (col [#4]); split; [exact H1|split; [lia|split; [discriminate|reflexivity]]].
    + intros n Hn c Hc; apply Names in Hn; unfold df_contains_name; rewrite Ed.
      destruct Hn as [<-|[<-|[<-|[<-|[<-|[]]]]]], Hc as [<-|[<-|[<-|[]]]]; reflexivity.
  - split; [exact Hp|split; [discriminate|split; [exact Hi|repeat constructor; cbn; lia]]].
  - intros b c Hb E; apply Names in Hb; destruct Hb as [<-|[<-|[<-|[<-|[<-|[]]]]]]; discriminate E.
  - intros b c Hb E; apply Names in Hb; destruct Hb as [<-|[<-|[<-|[<-|[<-|[]]]]]]; discriminate E.
Qed.
