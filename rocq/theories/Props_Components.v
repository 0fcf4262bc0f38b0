(** * C94, C96, C97: Components, Coordinates, EigenValues and EigenVectors. *)
From Verif Require Import Base Num Serie Functional Eigen Spec BaseFacts SerieFacts FunctionalFacts MathFacts MinMaxFacts AlgebraFacts F64 Props_Functional Dataframe Props_Dataframe Attributes.
From Coq Require String Ascii.
Import String.StringSyntax Ascii.AsciiSyntax.
Local Open Scope string_scope.
Local Open Scope list_scope.
Open Scope Z_scope.
Opaque f64_of_Z.

(** ** Specification *)
(** the numbers at place [i] of every item *)
Definition places {T} (i : nat) (rows : list (list T)) (xs : list T) : Prop := Forall2 (fun r x => nth_error r i = Some x) rows xs.
(** the outcome is the scalar Serie of these numbers *)
Definition delivers {T} (o : outcome (Serie T)) (i : nat) (rows : list (list T)) : Prop :=
  exists xs, o = Ok (mk 1 (col xs) 3) /\ places i rows xs.
(** names of the entries, in the order they are stored *)
Definition vector_layout : list (string * nat) := [("x", 0); ("y", 1); ("z", 2)]%string%nat.
Definition sym_layout : list (string * nat) := [("xx", 0); ("xy", 1); ("xz", 2); ("yy", 3); ("yz", 4); ("zz", 5)]%string%nat.
Definition full_layout : list (string * nat) :=
  [("xx", 0); ("xy", 1); ("xz", 2); ("yx", 3); ("yy", 4); ("yz", 5); ("zx", 6); ("zy", 7); ("zz", 8)]%string%nat.
(** a Dataframe after any calls *)
Definition reachable {T} {NT : Num T} (d : Dataframe T) : Prop := exists c0 cs, Forall keeps_dim cs /\ d = drun cs (df_new c0).
(** the name [n] followed by one letter of a component is not stored *)
Definition no_prefix_clash {T} {NT : Num T} (d : Dataframe T) (n : string) : Prop :=
  forall c, In c ["x"; "y"; "z"]%string -> df_contains_name d (n +++ c) = false.

(** ** Strings *)
Lemma append_assoc a b c : (a +++ b) +++ c = a +++ (b +++ c).
Proof. induction a as [|x a IH]; cbn; [reflexivity|rewrite IH; reflexivity]. Qed.
Lemma append_length a b : String.length (a +++ b) = (String.length a + String.length b)%nat.
Proof. induction a as [|x a IH]; cbn; [reflexivity|rewrite IH; reflexivity]. Qed.
Lemma substring_append n c : String.substring 0 (String.length n) (n +++ c) = n.
Proof. induction n as [|x n IH]; cbn; [destruct c; reflexivity|rewrite IH; reflexivity]. Qed.
Lemma chop_append k n c : String.length c = k -> chop k (n +++ c) = n.
Proof.
  intros Hc; unfold chop; rewrite append_length, Hc; destruct (Nat.ltb_spec (String.length n + k) k); [lia|].
  replace (String.length n + k - k)%nat with (String.length n) by lia; apply substring_append.
Qed.
Lemma eqb_append n a b : String.eqb (n +++ a) (n +++ b) = String.eqb a b.
Proof. induction n as [|x n IH]; cbn; [reflexivity|rewrite Ascii.eqb_refl; exact IH]. Qed.
Lemma append_inj n a b : n +++ a = n +++ b -> a = b.
Proof. intros E; apply String.eqb_eq in E; rewrite eqb_append in E; apply String.eqb_eq; exact E. Qed.
Lemma index_of_prefix n c l : forall i, index_of (n +++ c) n l i = index_of c ""%string l i.
Proof. induction l as [|x l IH]; intros i; cbn [index_of]; [reflexivity|]; rewrite eqb_append, IH; reflexivity. Qed.
Lemma get_last n c : String.get (String.length (n +++ String.String c "") - 1) (n +++ String.String c "") = Some c.
Proof. rewrite append_length; cbn [String.length]; replace (String.length n + 1 - 1)%nat with (String.length n) by lia; induction n as [|x n IH]; cbn; [reflexivity|exact IH]. Qed.

(** ** [component] *)
Section Component.
  Context {T : Type} {NT : Num T}.
  Lemma component_ok (s : Serie T) k rows i : repr s k rows -> rows <> [] -> Z.of_nat i < k -> delivers (component (Z.of_nat i) s) i rows.
  Proof.
    intros Hs Hne Hi; pose proof (repr_rows _ _ _ Hs) as Rr; destruct rows as [|r0 rows]; [congruence|].
    assert (L0 : len r0 = k) by (inversion Rr; assumption).
    destruct r0 as [|d0 r0]; [change (len (@nil T)) with 0 in L0; lia|].
    exists (map (fun r => nth i r d0) ((d0 :: r0) :: rows)); split.
    - unfold col; rewrite map_map; unfold component.
      apply (map_rows_ok s k ((d0 :: r0) :: rows) (fun item => let* x := rd item (Z.of_nat i) in Ok [x]) (fun r => [nth i r d0]) 1 Hs Hne ltac:(lia)).
      intros r Hr; split; [|reflexivity].
      unfold rows_of_size in Rr; rewrite Forall_forall in Rr; rewrite (rd_nat r i (nth i r d0)); [reflexivity|].
      apply nth_error_nth'; specialize (Rr r Hr); unfold len in Rr; lia.
    - unfold places; unfold rows_of_size in Rr; clear Hs Hne L0; revert Rr; generalize ((d0 :: r0) :: rows); induction l as [|r l IH]; intros Rr; cbn [map]; constructor.
      + apply nth_error_nth'; inversion Rr; subst; unfold len in *; lia.
      + apply IH; inversion Rr; assumption.
  Qed.
  Lemma component_empty (s : Serie T) k i : repr s k [] -> component i s = Ok (mk 0 [] 3).
  Proof. intros Hs; apply (run_map_vv_empty _ s k Hs). Qed.
  Lemma component_ub (s : Serie T) k r rows i : repr s k (r :: rows) -> k <= i -> component i s = UB.
  Proof.
    intros Hs Hi; pose proof (repr_rows _ _ _ Hs) as Rr; inversion Rr; subst; unfold component, map_vv, map_arr, run.
    rewrite (repr_count _ _ _ Hs), len_cons; destruct (Z.eqb_spec (len rows + 1) 0); [pose proof (len_nonneg rows); lia|].
    unfold mbind at 1, lift at 1; rewrite (get_array_nth s _ (r :: rows) 0 r Hs eq_refl : get_array s 0 = Ok r).
    unfold mbind at 1, lift at 1; rewrite rd_out by (right; exact Hi); reflexivity.
  Qed.
  Lemma repr_copy (s : Serie T) k rows : repr s k rows -> repr (serie_copy s) k rows.
  Proof. intros H; exact H. Qed.
  Lemma repr_assign (t s : Serie T) k rows : repr s k rows -> repr (serie_assign t s) k rows.
  Proof. intros H; exact H. Qed.

  Lemma reachable_ordered (d : Dataframe T) : reachable d -> ordered (df_series d).
  Proof. intros (c0 & cs & _ & ->); apply run_ordered; constructor. Qed.
  Lemma reachable_dim (d : Dataframe T) n : reachable d -> dimension (df_get d n) = 3.
  Proof. intros (c0 & cs & Hk & ->); apply (C50_dimension_partial T NT c0 cs n Hk). Qed.
  Lemma get_absent (d : Dataframe T) n : df_contains_name d n = false -> df_get d n = serie_default.
  Proof. unfold df_contains_name, df_get; destruct (map_find n (df_series d)); [discriminate|reflexivity]. Qed.

  (** the three look-ups of [components_serie] *)
  Lemma lookup_vector (d : Dataframe T) k n c k1 rows i : k <= 1 -> reachable d -> String.length c = 1%nat ->
    repr (df_get d n) k1 rows -> 1 <= k1 -> index_of c "" vector3Names 0 = Some i ->
    components_serie d k (n +++ c) = component i (serie_copy (df_get d n)).
  Proof.
    intros Hk Hd Hc Hs Hk1 Hi; unfold components_serie; destruct (Z.ltb_spec 1 k); [lia|].
    rewrite (chop_append 1 n c Hc); cbv zeta.
    rewrite (isValid_repr _ _ _ (repr_copy _ _ _ Hs)); destruct (Z.ltb_spec 0 k1); [|lia].
    change (dimension (serie_copy (df_get d n))) with (dimension (df_get d n)); rewrite (reachable_dim d n Hd); cbn [Z.eqb Pos.eqb].
    rewrite index_of_prefix, Hi; reflexivity.
  Qed.
  Lemma lookup_matrix (d : Dataframe T) k n a c k1 rows i : k <= 1 -> reachable d -> String.length a = 1%nat -> String.length c = 1%nat ->
    df_contains_name d (n +++ a) = false ->
    repr (df_get d n) k1 rows -> 1 <= k1 -> or_else (index_of (a +++ c) "" smatrix3Names 0) (index_of (a +++ c) "" matrix3Names 0) = Some i ->
    components_serie d k (n +++ (a +++ c)) = component i (serie_assign serie_default (df_get d n)).
  Proof.
    intros Hk Hd Ha Hc Hno Hs Hk1 Hi; unfold components_serie; destruct (Z.ltb_spec 1 k); [lia|].
    rewrite (chop_append 2 n (a +++ c)) by (rewrite append_length; lia).
    rewrite <- append_assoc, (chop_append 1 (n +++ a) c Hc), append_assoc; cbv zeta.
    rewrite (get_absent d _ Hno); cbn [isValid serie_copy serie_default serie_n itemSize_ Z.ltb Z.compare].
    rewrite (isValid_repr _ _ _ (repr_assign _ _ _ _ Hs)); destruct (Z.ltb_spec 0 k1); [|lia].
    cbn [dimension serie_assign dimension_ serie_copy serie_default serie_n Z.eqb Pos.eqb].
    rewrite !index_of_prefix, Hi; reflexivity.
  Qed.
End Component.

(** ** C94 *)
Theorem C94_vector :
  forall {T : Type} {NT : Num T} (d : Dataframe T) n rows c i,
  reachable d -> repr (df_get d n) 3 rows -> rows <> [] -> In (c, i) vector_layout ->
  delivers (components_serie d 1 (n +++ c)) i rows.
Proof.
  intros T NT d n rows c i Hd Hs Hne Hin.
  assert (E : String.length c = 1%nat /\ index_of c "" vector3Names 0 = Some (Z.of_nat i) /\ (i < 3)%nat).
  { repeat (destruct Hin as [Hin|Hin]; [injection Hin as <- <-; repeat split; lia|]); destruct Hin. }
  destruct E as (Hc & Hi & Hl); rewrite (lookup_vector d 1 n c 3 rows (Z.of_nat i) ltac:(lia) Hd Hc Hs ltac:(lia) Hi).
  apply (component_ok _ 3); [exact Hs|exact Hne|lia].
Qed.
Print Assumptions C94_vector.

Lemma matrix_split c i : In (c, i) sym_layout \/ In (c, i) full_layout -> exists a b, c = a +++ b /\ In a ["x"; "y"; "z"]%string /\ String.length a = 1%nat /\ String.length b = 1%nat.
Proof.
  intros H.
  assert (G : In c ["xx"; "xy"; "xz"; "yx"; "yy"; "yz"; "zx"; "zy"; "zz"]%string).
  { destruct H as [H|H]; repeat (destruct H as [H|H]; [injection H as <- _; cbn; tauto|]); destruct H. }
  repeat (destruct G as [<-|G]; [match goal with |- exists a b, String.String ?x (String.String ?y "") = _ /\ _ => exists (String.String x ""), (String.String y ""); split; [reflexivity|]; split; [cbn; tauto|split; reflexivity] end|]); destruct G.
Qed.

Theorem C94_symmetric_partial :
  forall {T : Type} {NT : Num T} (d : Dataframe T) n rows c i,
  reachable d -> repr (df_get d n) 6 rows -> rows <> [] -> no_prefix_clash d n -> In (c, i) sym_layout ->
  delivers (components_serie d 1 (n +++ c)) i rows.
Proof.
  intros T NT d n rows c i Hd Hs Hne Hno Hin.
  assert (E : index_of c "" smatrix3Names 0 = Some (Z.of_nat i) /\ (i < 6)%nat).
  { repeat (destruct Hin as [Hin|Hin]; [injection Hin as <- <-; repeat split; lia|]); destruct Hin. }
  destruct (matrix_split c i (or_introl Hin)) as (a & b & -> & Ha & La & Lb); destruct E as (Hi & Hl).
  rewrite (lookup_matrix d 1 n a b 6 rows (Z.of_nat i) ltac:(lia) Hd La Lb (Hno a Ha) Hs ltac:(lia)) by (rewrite Hi; reflexivity).
  apply (component_ok _ 6); [exact Hs|exact Hne|lia].
Qed.
Print Assumptions C94_symmetric_partial.

(** full matrices: every entry but yy, yz, zz *)
Theorem C94_full_partial :
  forall {T : Type} {NT : Num T} (d : Dataframe T) n rows c i,
  reachable d -> repr (df_get d n) 9 rows -> rows <> [] -> no_prefix_clash d n -> In (c, i) full_layout -> ~ In c ["yy"; "yz"; "zz"]%string ->
  delivers (components_serie d 1 (n +++ c)) i rows.
Proof.
  intros T NT d n rows c i Hd Hs Hne Hno Hin Hex.
  assert (E : or_else (index_of c "" smatrix3Names 0) (index_of c "" matrix3Names 0) = Some (Z.of_nat i) /\ (i < 9)%nat).
  { repeat (destruct Hin as [Hin|Hin]; [injection Hin as <- <-; try (exfalso; apply Hex; cbn; tauto); repeat split; lia|]); destruct Hin. }
  destruct (matrix_split c i (or_intror Hin)) as (a & b & -> & Ha & La & Lb); destruct E as (Hi & Hl).
  rewrite (lookup_matrix d 1 n a b 9 rows (Z.of_nat i) ltac:(lia) Hd La Lb (Hno a Ha) Hs ltac:(lia)) by exact Hi.
  apply (component_ok _ 9); [exact Hs|exact Hne|lia].
Qed.
Print Assumptions C94_full_partial.
(** what the other three deliver: yx, yy, yz *)
Definition wrong_layout : list (string * nat) := [("yy", 3); ("yz", 4); ("zz", 5)]%string%nat.
Theorem C94_full_wrong :
  forall {T : Type} {NT : Num T} (d : Dataframe T) n rows c i,
  reachable d -> repr (df_get d n) 9 rows -> rows <> [] -> no_prefix_clash d n -> In (c, i) wrong_layout ->
  delivers (components_serie d 1 (n +++ c)) i rows.
Proof.
  intros T NT d n rows c i Hd Hs Hne Hno Hin.
  assert (E : or_else (index_of c "" smatrix3Names 0) (index_of c "" matrix3Names 0) = Some (Z.of_nat i) /\ (i < 9)%nat /\ In (c, i) sym_layout).
  { repeat (destruct Hin as [Hin|Hin]; [injection Hin as <- <-; split; [reflexivity|split; [lia|cbn; tauto]]|]); destruct Hin. }
  destruct E as (Hi & Hl & Hin'); destruct (matrix_split c i (or_introl Hin')) as (a & b & -> & Ha & La & Lb).
  rewrite (lookup_matrix d 1 n a b 9 rows (Z.of_nat i) ltac:(lia) Hd La Lb (Hno a Ha) Hs ltac:(lia)) by exact Hi.
  apply (component_ok _ 9); [exact Hs|exact Hne|lia].
Qed.
Print Assumptions C94_full_wrong.

Definition df_of {T} {NT : Num T} (l : list (string * Serie T)) : Dataframe T := drun (map (fun e => DAdd 0 (fst e) (snd e)) l) (df_new 0).
Lemma df_of_reachable {T} {NT : Num T} (l : list (string * Serie T)) : reachable (df_of l).
Proof. exists 0, (map (fun e => DAdd 0 (fst e) (snd e)) l); split; [|reflexivity]; apply Forall_forall; intros c Hc; apply in_map_iff in Hc; destruct Hc as (e & <- & _); exact I. Qed.

#[local] Existing Instance F64N.
Lemma one_neq_two : #1 <> #2.
Proof. Transparent f64_of_Z. intros E; assert (D : n_eqb (#1) (#2) = false) by (vm_compute; reflexivity); rewrite E in D; vm_compute in D; discriminate D. Opaque f64_of_Z. Qed.
(** the name zz of a full matrix delivers another entry *)
Theorem C94_full_refuted :
  exists (d : Dataframe F64) rows, reachable d /\ repr (df_get d "S"%string) 9 rows /\ rows <> [] /\ no_prefix_clash d "S"%string /\
    ~ delivers (components_serie d 1 "Szz"%string) 8 rows.
Proof.
  set (s := mk 9 [[#1; #1; #1; #1; #1; #1; #1; #1; #2]] 3); exists (df_of [("S"%string, s)]), [[#1; #1; #1; #1; #1; #1; #1; #1; #2]].
  split; [apply df_of_reachable|]; split; [change (df_get (df_of [("S"%string, s)]) "S"%string) with s; unfold s; repr_ex|]; split; [discriminate|].
  split; [intros c [<-|[<-|[<-|[]]]]; reflexivity|].
  intros (xs & E & H); change (components_serie (df_of [("S"%string, s)]) 1 "Szz"%string) with (Ok (mk 1 (col [#1]) 3)) in E.
  assert (X : concat (col xs) = [#1]) by (apply (f_equal (fun o => match o with Ok s => s_ s | _ => [] end)) in E; symmetry; exact E); rewrite concat_col in X; subst xs; inversion H as [|? ? ? ? Hx]; subst; apply one_neq_two; symmetry; exact (f_equal (fun o => match o with Some x => x | None => #1 end) Hx).
Qed.
Print Assumptions C94_full_refuted.
(** a scalar named like a component: the symmetric matrix [S] and the scalar [Sx]; [Sxy] reads the second number of one *)
Theorem C94_clash_refuted :
  exists (d : Dataframe F64) rows, reachable d /\ repr (df_get d "S"%string) 6 rows /\ rows <> [] /\ components_serie d 1 "Sxy"%string = UB.
Proof.
  set (s := mk 6 [[#1; #2; #3; #4; #5; #6]] 3); exists (df_of [("S"%string, s); ("Sx"%string, mk 1 (col [#1]) 3)]), [[#1; #2; #3; #4; #5; #6]].
  split; [apply df_of_reachable|]; split; [change (df_get (df_of [("S"%string, s); ("Sx"%string, mk 1 (col [#1]) 3)]) "S"%string) with s; unfold s; repr_ex|]; split; [discriminate|reflexivity].
Qed.
Print Assumptions C94_clash_refuted.
(** the Dataframe forgets that a Serie is two-dimensional: [Syy] of a symmetric 2x2 matrix reads past the item *)
Theorem C94_two_dimensional_refuted :
  forall (a b c : F64), let d := df_of [("S"%string, mk 3 [[a; b; c]] 2)] in
  delivers (components_serie d 1 "Sxx"%string) 0 [[a; b; c]] /\ delivers (components_serie d 1 "Sxy"%string) 1 [[a; b; c]] /\ components_serie d 1 "Syy"%string = UB.
Proof.
  intros a b c d; split; [|split; [|reflexivity]].
  - exists [a]; split; [reflexivity|repeat constructor].
  - exists [b]; split; [reflexivity|repeat constructor].
Qed.
Print Assumptions C94_two_dimensional_refuted.
(** asking a scalar for a component other than x is undefined *)
Theorem C94_scalar :
  forall {T : Type} {NT : Num T} (d : Dataframe T) n x xs c i,
  reachable d -> repr (df_get d n) 1 (col (x :: xs)) -> In (c, i) vector_layout -> (1 <= i)%nat -> components_serie d 1 (n +++ c) = UB.
Proof.
  intros T NT d n x xs c i Hd Hs Hin Hi.
  assert (E : String.length c = 1%nat /\ index_of c "" vector3Names 0 = Some (Z.of_nat i)).
  { repeat (destruct Hin as [Hin|Hin]; [injection Hin as <- <-; repeat split; lia|]); destruct Hin. }
  destruct E as (Hc & E); rewrite (lookup_vector d 1 n c 1 _ (Z.of_nat i) ltac:(lia) Hd Hc Hs ltac:(lia) E).
  apply (component_ub _ 1 [x] (col xs)); [exact Hs|lia].
Qed.
Print Assumptions C94_scalar.
(** no item: the answer is not valid *)
Theorem C94_empty :
  forall {T : Type} {NT : Num T} (d : Dataframe T) n c i, reachable d -> repr (df_get d n) 3 [] -> In (c, i) vector_layout ->
  components_serie d 1 (n +++ c) = Ok (mk 0 [] 3).
Proof.
  intros T NT d n c i Hd Hs Hin.
  assert (E : String.length c = 1%nat /\ index_of c "" vector3Names 0 = Some (Z.of_nat i)).
  { repeat (destruct Hin as [Hin|Hin]; [injection Hin as <- <-; repeat split; lia|]); destruct Hin. }
  destruct E as (Hc & E); rewrite (lookup_vector d 1 n c 3 _ (Z.of_nat i) ltac:(lia) Hd Hc Hs ltac:(lia) E); apply (component_empty _ 3); exact Hs.
Qed.
Print Assumptions C94_empty.
Example C94_example :
  let d := df_of [("U"%string, mk 3 [[#1; #2; #3]; [#4; #5; #6]] 3); ("S"%string, mk 6 [[#1; #2; #3; #4; #5; #6]] 3)] in
  reachable d /\ repr (df_get d "U"%string) 3 [[#1; #2; #3]; [#4; #5; #6]] /\ repr (df_get d "S"%string) 6 [[#1; #2; #3; #4; #5; #6]] /\ no_prefix_clash d "S"%string /\
  components_serie d 1 "Uy"%string = Ok (mk 1 (col [#2; #5]) 3) /\ components_serie d 1 "Syz"%string = Ok (mk 1 (col [#5]) 3).
Proof.
  intros d; split; [apply df_of_reachable|].
  change (df_get d "U"%string) with (mk 3 [[#1; #2; #3]; [#4; #5; #6]] 3); change (df_get d "S"%string) with (mk 6 [[#1; #2; #3; #4; #5; #6]] 3).
  split; [repr_ex|split; [repr_ex|split; [intros c [<-|[<-|[<-|[]]]]; reflexivity|split; reflexivity]]].
Qed.

(** ** C96 *)
Theorem C96_coordinates :
  forall {T St : Type} {NT : Num T} (d : Dataframe T) rows (nx ny nz : string),
  repr (df_get d "positions"%string) 3 rows -> rows <> [] -> NoDup [nx; ny; nz] ->
  let c := coordinates_serie [nx; ny; nz] d in
  delivers (c 1 nx) 0 rows /\ delivers (c 1 ny) 1 rows /\ delivers (c 1 nz) 2 rows /\
  (forall k n, k <> 1 \/ ~ In n [nx; ny; nz] -> exists s, c k n = Ok s /\ isValid s = false) /\
  (forall k n ref st, d_names (Coordinates (St := St) [nx; ny; nz]) d k ref n st = (Ok (if (k =? 1) && String.eqb n "positions" then [nx; ny; nz] else []), st)).
Proof.
  intros T St NT d rows nx ny nz Hp Hne Hnd c.
  assert (Hd : nx <> ny /\ nx <> nz /\ ny <> nz).
  { inversion Hnd as [|? ? H1 H2]; subst; inversion H2 as [|? ? H3 _]; subst; cbn [In] in *; repeat split; intros E; subst; tauto. }
  destruct Hd as (D1 & D2 & D3).
  assert (U : forall n, c 1 n = if String.eqb n nx then component 0 (df_get d "positions"%string) else if String.eqb n ny then component 1 (df_get d "positions"%string)
      else if String.eqb n nz then component 2 (df_get d "positions"%string) else Ok serie_default) by reflexivity.
  split; [|split; [|split; [|split]]].
  - rewrite U, String.eqb_refl; apply (component_ok _ 3 rows 0 Hp Hne); lia.
  - rewrite U, String.eqb_refl; destruct (String.eqb_spec ny nx); [congruence|]; apply (component_ok _ 3 rows 1 Hp Hne); lia.
  - rewrite U, String.eqb_refl; destruct (String.eqb_spec nz nx); [congruence|]; destruct (String.eqb_spec nz ny); [congruence|]; apply (component_ok _ 3 rows 2 Hp Hne); lia.
  - intros k n H; exists serie_default; split; [|reflexivity].
    destruct (Z.eqb_spec k 1) as [->|Hk]; [|unfold c, coordinates_serie; destruct (Z.eqb_spec k 1); [contradiction|reflexivity]].
    destruct H as [H|H]; [congruence|]; rewrite U; cbn [In] in H.
    destruct (String.eqb_spec n nx); [subst; tauto|]; destruct (String.eqb_spec n ny); [subst; tauto|]; destruct (String.eqb_spec n nz); [subst; tauto|reflexivity].
  - intros k n ref st; unfold Coordinates, coordinates_names; cbn [d_names]; unfold ret; destruct (k =? 1), (String.eqb n "positions"); reflexivity.
Qed.
Print Assumptions C96_coordinates.
(** fewer than three names: another name reads past the end of the list *)
Theorem C96_fewer_names :
  forall {T : Type} {NT : Num T} (d : Dataframe T) names_ n, (length names_ < 3)%nat -> ~ In n names_ -> coordinates_serie names_ d 1 n = UB.
Proof.
  intros T NT d names_ n Hl Hn; unfold coordinates_serie; cbn [Z.eqb Pos.eqb]; change (iota 3) with [0; 1; 2].
  destruct names_ as [|a [|b [|c l]]]; [reflexivity| | |cbn [length] in Hl; lia]; cbn [coordinates_loop In] in *.
  - change (rd [a] 0) with (Ok a); cbn [obind]; destruct (String.eqb_spec n a); [subst; tauto|reflexivity].
  - change (rd [a; b] 0) with (Ok a); cbn [obind]; destruct (String.eqb_spec n a); [subst; tauto|].
    change (rd [a; b] 1) with (Ok b); cbn [obind]; destruct (String.eqb_spec n b); [subst; tauto|reflexivity].
Qed.
Print Assumptions C96_fewer_names.
Example C96_example :
  let d := df_of [("positions"%string, mk 3 [[#1; #2; #3]; [#4; #5; #6]] 3)] in
  repr (df_get d "positions"%string) 3 [[#1; #2; #3]; [#4; #5; #6]] /\ NoDup ["x"; "y"; "z"]%string /\
  coordinates_serie ["x"; "y"; "z"]%string d 1 "z"%string = Ok (mk 1 (col [#3; #6]) 3).
Proof.
  intros d; change (df_get d "positions"%string) with (mk 3 [[#1; #2; #3]; [#4; #5; #6]] 3); split; [repr_ex|split; [|reflexivity]].
  repeat constructor; cbn; intuition discriminate.
Qed.

(** ** C97 *)
(** names ending in any printable character - in particular 1, 2, 3 - never resolve, with any eigenvalue function *)
Theorem C97_never_resolves :
  forall {T : Type} {NT : Num T} wanted eigen (d : Dataframe T) k n c,
  3 < Z.of_N (Ascii.N_of_ascii c) -> exists s, eigen_serie wanted eigen d k (n +++ String.String c "") = Ok s /\ isValid s = false.
Proof.
  intros T NT wanted eigen d k n c Hc; exists serie_default; split; [|reflexivity]; unfold eigen_serie.
  destruct (negb (k =? wanted)); [reflexivity|]; unfold last_id; rewrite get_last; cbn [obind].
  set (z := Z.of_N (Ascii.N_of_ascii c)) in *.
  assert (Hz : z < 256) by (unfold z; pose proof (Ascii.N_ascii_bounded c); lia).
  assert (H3 : 3 < u32 (if z <? 128 then z else z - 256)).
  { destruct (Z.ltb_spec z 128); [rewrite u32_small by lia; exact Hc|].
    replace (u32 (z - 256)) with (z - 256 + 4294967296); [lia|]; unfold u32, two32; apply (Z.mod_unique _ _ (-1)); lia. }
  destruct (Z.ltb_spec 3 (u32 (if z <? 128 then z else z - 256))); [|lia]; destruct (Z.ltb_spec 2 (u32 (if z <? 128 then z else z - 256))); [|lia].
  rewrite !Bool.orb_true_r; destruct (negb (isValid (df_get d (chop 1 (n +++ String.String c ""))))); [reflexivity|]; destruct (dimension _ =? 2); reflexivity.
Qed.
Print Assumptions C97_never_resolves.
Theorem C97_refuted :
  exists (d : Dataframe F64) rows, reachable d /\ repr (df_get d "S"%string) 6 rows /\ rows <> [] /\
    (forall c, In c ["1"; "2"; "3"]%string -> exists s s', eigen_serie 1 eigenValues d 1 ("S" +++ c) = Ok s /\ isValid s = false /\ eigen_serie 3 eigenVectors d 3 ("S" +++ c) = Ok s' /\ isValid s' = false).
Proof.
  exists (df_of [("S"%string, mk 6 [[#1; #2; #3; #4; #5; #6]] 3)]), [[#1; #2; #3; #4; #5; #6]]; split; [apply df_of_reachable|].
  change (df_get (df_of [("S"%string, mk 6 [[#1; #2; #3; #4; #5; #6]] 3)]) "S"%string) with (mk 6 [[#1; #2; #3; #4; #5; #6]] 3); split; [repr_ex|split; [discriminate|]].
  intros c [<-|[<-|[<-|[]]]]; do 2 eexists; repeat split; reflexivity.
Qed.
Print Assumptions C97_refuted.
(** what resolves: the character with the code [i], which no keyboard types *)
Theorem C97_control_character_partial :
  forall {T : Type} {NT : Num T} (d : Dataframe T) n rows i,
  reachable d -> repr (df_get d n) 6 rows -> (1 <= i <= 3)%nat ->
  let name := n +++ String.String (Ascii.ascii_of_nat i) "" in
  eigen_serie 1 eigenValues d 1 name = (let* e := eigenValues (df_get d n) in component (Z.of_nat (i - 1)) e) /\
  eigen_serie 3 eigenVectors d 3 name = (let* e := eigenVectors (df_get d n) in component (Z.of_nat (i - 1)) e).
Proof.
  intros T NT d n rows i Hd Hs Hi name.
  assert (L : last_id name = Ok (Z.of_nat i)) by (unfold last_id, name; rewrite get_last; destruct i as [|[|[|[|i]]]]; try lia; reflexivity).
  assert (C : chop 1 name = n) by (apply chop_append; reflexivity).
  unfold eigen_serie; cbn [Z.eqb Pos.eqb negb]; rewrite C, L; cbn [obind]; rewrite (isValid_repr _ _ _ Hs), (repr_itemSize _ _ _ Hs), (reachable_dim d n Hd).
  cbn [Z.eqb Pos.eqb Z.ltb Z.compare negb orb]; destruct i as [|[|[|[|i]]]]; try lia; split; reflexivity.
Qed.
Print Assumptions C97_control_character_partial.
(** even there EigenVectors gives one number per item, not a vector *)
Theorem C97_vectors_one_number :
  forall {T : Type} {NT : Num T} (vectors : Serie T) rows i, repr vectors 9 rows -> rows <> [] -> (i < 3)%nat ->
  exists s, component (Z.of_nat i) vectors = Ok s /\ itemSize s = 1.
Proof. intros T NT vectors rows i Hv Hne Hi; destruct (component_ok vectors 9 rows i Hv Hne ltac:(lia)) as (xs & E & _); exists (mk 1 (col xs) 3); split; [exact E|reflexivity]. Qed.
Print Assumptions C97_vectors_one_number.
(** the empty name has no last character *)
Theorem C97_empty_name : forall {T : Type} {NT : Num T} (d : Dataframe T), eigen_serie 1 eigenValues d 1 ""%string = UB /\ eigen_serie 3 eigenVectors d 3 ""%string = UB.
Proof. intros T NT d; split; reflexivity. Qed.
Print Assumptions C97_empty_name.
Example C97_example :
  let d := df_of [("S"%string, mk 6 [[#1; #2; #3; #4; #5; #6]] 3)] in
  reachable d /\ repr (df_get d "S"%string) 6 [[#1; #2; #3; #4; #5; #6]] /\ 3 < Z.of_N (Ascii.N_of_ascii (Ascii.ascii_of_nat 49)) /\
  eigen_names 1 1 1 (df_get d "S"%string) "S"%string = ["S1"; "S2"; "S3"]%string.
Proof. intros d; split; [apply df_of_reachable|]; change (df_get d "S"%string) with (mk 6 [[#1; #2; #3; #4; #5; #6]] 3); split; [repr_ex|split; reflexivity]. Qed.
