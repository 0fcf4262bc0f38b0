(** * C106: the names each decomposer offers; C97: requests of other sizes. *)
From Verif Require Import Base Num Serie Functional Eigen Spec BaseFacts SerieFacts F64 Props_Functional Dataframe Props_Dataframe Attributes Props_Components.
From Coq Require String Ascii.
Import String.StringSyntax Ascii.AsciiSyntax.
Local Open Scope string_scope.
Local Open Scope list_scope.
Open Scope Z_scope.
Opaque f64_of_Z.
#[local] Existing Instance F64N.

(** ** Specification: dimension, item size, and the suffixes in the order the numbers are stored *)
Definition layouts : list (Z * Z * list string) :=
  [(2, 2, ["x"; "y"]); (2, 3, ["xx"; "xy"; "yy"]); (2, 4, ["xx"; "xy"; "yx"; "yy"]);
   (3, 3, ["x"; "y"; "z"]); (3, 6, ["xx"; "xy"; "xz"; "yy"; "yz"; "zz"]);
   (3, 9, ["xx"; "xy"; "xz"; "yx"; "yy"; "yz"; "zx"; "zy"; "zz"])].
Definition reserved (n : string) : Prop := n = "positions" \/ n = "indices".
(** the full claim: one name for every number of an item *)
Definition one_name_per_number {T} {NT : Num T} (d : Dataframe T) (n : string) : Prop :=
  exists a s l, map_find n (df_series d) = Some (a, s) /\ components_names d 1 (a, s) n = l /\ (len l = itemSize s \/ itemSize s = 1).

Lemma not_reserved n : ~ reserved n -> String.eqb n "positions" || String.eqb n "indices" = false.
Proof. unfold reserved; intros H; destruct (String.eqb_spec n "positions"); [tauto|]; destruct (String.eqb_spec n "indices"); [tauto|reflexivity]. Qed.

Theorem C106_components_partial :
  forall {T St : Type} {NT : Num T} (d : Dataframe T) a (s : Serie T) n suffixes (st : St),
  ~ reserved n -> In (dimension s, itemSize s, suffixes) layouts ->
  d_names Components d 1 (a, s) n st = (Ok (map (fun c => n +++ c) suffixes), st) /\ len suffixes = itemSize s.
Proof.
  intros T St NT d a s n l st Hr Hin; unfold Components, ret; cbn [d_names]; unfold components_names; rewrite (not_reserved _ Hr).
  unfold layouts in Hin; cbn [In] in Hin.
  destruct Hin as [E|[E|[E|[E|[E|[E|[]]]]]]]; injection E as <- <- <-; cbn [Z.eqb Z.ltb Z.compare Pos.eqb Pos.compare Pos.compare_cont]; rewrite Bool.andb_false_r; split; reflexivity.
Qed.
Print Assumptions C106_components_partial.
Theorem C106_components_otherwise :
  forall {T St : Type} {NT : Num T} (d : Dataframe T) k a (s : Serie T) n (st : St), 0 <= k ->
  (reserved n \/ 2 <= k \/ (itemSize s = 1 /\ nameOfSerie d a = n) -> d_names Components d k (a, s) n st = (Ok [], st)) /\
  (~ reserved n -> itemSize s <> 1 -> dimension s = 2 \/ dimension s = 3 -> (forall l, ~ In (dimension s, itemSize s, l) layouts) ->
    d_names Components d 1 (a, s) n st = (Ok [n +++ "0"], st)).
Proof.
  intros T St NT d k a s n st Hk; unfold Components, ret; cbn [d_names]; unfold components_names; split.
  - intros H; destruct (String.eqb_spec n "positions"); [reflexivity|]; destruct (String.eqb_spec n "indices"); [reflexivity|]; cbn [orb].
    destruct H as [[H|H]|[H|[H1 H2]]]; [contradiction|contradiction| |rewrite H1, H2, String.eqb_refl; reflexivity].
    destruct (_ && _); [reflexivity|]; destruct (Z.ltb_spec 1 k); [reflexivity|lia].
  - intros Hr H1 Hd Hno; rewrite (not_reserved _ Hr); destruct (Z.eqb_spec (itemSize s) 1); [contradiction|]; rewrite Bool.andb_false_r; cbn [Z.ltb Z.compare Pos.compare Pos.compare_cont].
    destruct Hd as [Hd|Hd]; rewrite Hd in *; cbn [Z.eqb Pos.eqb].
    + destruct (Z.eqb_spec (itemSize s) 2) as [E|]; [exfalso; eapply Hno; rewrite E; cbn; eauto 9|]; destruct (Z.eqb_spec (itemSize s) 3) as [E|]; [exfalso; eapply Hno; rewrite E; cbn; eauto 9|].
      destruct (Z.eqb_spec (itemSize s) 4) as [E|]; [exfalso; eapply Hno; rewrite E; cbn; eauto 9|]; reflexivity.
    + destruct (Z.eqb_spec (itemSize s) 3) as [E|]; [exfalso; eapply Hno; rewrite E; cbn; eauto 9|]; destruct (Z.eqb_spec (itemSize s) 6) as [E|]; [exfalso; eapply Hno; rewrite E; cbn; eauto 9|].
      destruct (Z.eqb_spec (itemSize s) 9) as [E|]; [exfalso; eapply Hno; rewrite E; cbn; eauto 9|]; reflexivity.
Qed.
Print Assumptions C106_components_otherwise.
(** four numbers per item and one name *)
Theorem C106_refuted :
  exists d : Dataframe F64, reachable d /\ df_contains_name d "S" = true /\ ~ one_name_per_number d "S".
Proof.
  exists (df_of [("S", mk 4 [[#1; #2; #3; #4]] 3)]); split; [apply df_of_reachable|]; split; [reflexivity|].
  intros (a & s & l & F & E & H); change (df_series (df_of [("S", mk 4 [[#1; #2; #3; #4]] 3)])) with [("S", (0, mk 4 [[#1; #2; #3; #4]] 3))] in F.
  change (Some (0, mk 4 [[#1; #2; #3; #4]] 3) = Some (a, s)) in F; assert (Hs : s = mk 4 [[#1; #2; #3; #4]] 3) by congruence; assert (Ha : a = 0) by congruence; rewrite Hs, Ha in *; subst l.
  change (len ["S0"] = 4 \/ 4 = 1) in H; unfold len in H; cbn in H; lia.
Qed.
Print Assumptions C106_refuted.

(** EigenValues offers the numbered names of symmetric matrices to requests of scalars; EigenVectors to requests of vectors of
    the dimension *)
Theorem C106_eigen :
  forall {T St : Type} {NT : Num T} (d : Dataframe T) k a (s : Serie T) n (st : St), dimension s = 2 \/ dimension s = 3 ->
  let names := if dimension s =? 2 then [n +++ "1"; n +++ "2"] else [n +++ "1"; n +++ "2"; n +++ "3"] in
  let symmetric := itemSize s = (if dimension s =? 2 then 3 else 6) in
  (~ reserved n -> symmetric -> k = 1 -> d_names EigenValues d k (a, s) n st = (Ok names, st)) /\
  (~ reserved n -> symmetric -> k = dimension s -> d_names EigenVectors d k (a, s) n st = (Ok names, st)) /\
  (reserved n \/ ~ symmetric \/ k <> 1 -> d_names EigenValues d k (a, s) n st = (Ok [], st)) /\
  (reserved n \/ ~ symmetric \/ k <> dimension s -> d_names EigenVectors d k (a, s) n st = (Ok [], st)).
Proof.
  intros T St NT d k a s n st Hd names symmetric; unfold EigenValues, EigenVectors, ret, names, symmetric; cbn [d_names snd]; unfold eigen_names.
  assert (Hres : reserved n -> String.eqb n "positions" || String.eqb n "indices" = true) by (intros [->| ->]; reflexivity).
  destruct Hd as [Hd|Hd]; rewrite Hd; cbn [Z.eqb Pos.eqb andb]; (split; [|split; [|split]]).
  all: try (intros Hr Hs Hk; rewrite (not_reserved _ Hr), Hs, Hk; reflexivity).
  all: intros [H|[H|H]]; [rewrite (Hres H); reflexivity| |].
  all: destruct (_ || _); [reflexivity|].
  all: first [destruct (Z.eqb_spec (itemSize s) 3); [contradiction|reflexivity] | destruct (Z.eqb_spec (itemSize s) 6); [contradiction|reflexivity] | idtac].
  all: match goal with |- context [?x =? ?y] => idtac end.
  all: try (destruct (Z.eqb_spec k 1); [contradiction|]); try (destruct (Z.eqb_spec k 2); [contradiction|]); try (destruct (Z.eqb_spec k 3); [contradiction|]); cbn [negb]; rewrite Bool.orb_true_r; reflexivity.
Qed.
Print Assumptions C106_eigen.

(** Normals offers its name to requests of vectors; Area and Valence to requests of scalars; all three as soon as one of
    positions and indices is stored *)
Theorem C106_mesh :
  forall {T St : Type} {NT : Num T} (d : Dataframe T) k ref n name_ (st : St),
  let stored := df_contains_name d "positions" = true \/ df_contains_name d "indices" = true in
  (stored -> d_names (Normals name_) d 3 ref n st = (Ok [name_], st) /\ d_names (Area name_) d 1 ref n st = (Ok [name_], st) /\ d_names (Valence name_) d 1 ref n st = (Ok [name_], st)) /\
  (k <> 3 \/ ~ stored -> d_names (Normals name_) d k ref n st = (Ok [], st)) /\
  (k <> 1 \/ ~ stored -> d_names (Area name_) d k ref n st = (Ok [], st) /\ d_names (Valence name_) d k ref n st = (Ok [], st)).
Proof.
  intros T St NT d k ref n name_ st stored; unfold Normals, Area, Valence, ret, mesh_names; cbn [d_names Z.eqb Pos.eqb negb]; unfold stored; split; [|split].
  - intros [H|H]; rewrite H; cbn [negb andb]; rewrite ?Bool.andb_false_r; auto.
  - destruct (Z.eqb_spec k 3) as [->|]; cbn [negb]; [|reflexivity].
    destruct (df_contains_name d "positions"); [intros [H|H]; exfalso; auto|]; destruct (df_contains_name d "indices"); [intros [H|H]; exfalso; auto|]; reflexivity.
  - destruct (Z.eqb_spec k 1) as [->|]; cbn [negb]; [|auto].
    destruct (df_contains_name d "positions"); [intros [H|H]; exfalso; auto|]; destruct (df_contains_name d "indices"); [intros [H|H]; exfalso; auto|]; auto.
Qed.
Print Assumptions C106_mesh.

(** the base class offers and answers nothing; a user-defined decomposer offers its name when its callback answers *)
Theorem C106_user :
  forall {T St : Type} {NT : Num T} (d : Dataframe T) k ref n itemSize_ name_ (cb : Dataframe T -> M St (Serie T)) (st : St),
  d_names base_decomposer d k ref n st = (Ok [], st) /\ d_serie base_decomposer d k n st = (Ok (mk 0 [] 3), st) /\
  (k <> itemSize_ -> d_names (UserDefined itemSize_ name_ cb) d k ref n st = (Ok [], st) /\ d_serie (UserDefined itemSize_ name_ cb) d k n st = (Ok (mk 0 [] 3), st)) /\
  (n <> name_ -> d_serie (UserDefined itemSize_ name_ cb) d k n st = (Ok (mk 0 [] 3), st)) /\
  d_serie (UserDefined itemSize_ name_ cb) d itemSize_ name_ st = cb d st /\
  (forall s st', cb d st = (Ok s, st') -> d_names (UserDefined itemSize_ name_ cb) d itemSize_ ref n st = (Ok (if isValid s then [name_] else []), st')) /\
  (forall e st', cb d st = (Throw e, st') -> d_names (UserDefined itemSize_ name_ cb) d itemSize_ ref n st = (Throw e, st')) /\
  (forall st', cb d st = (UB, st') -> d_names (UserDefined itemSize_ name_ cb) d itemSize_ ref n st = (UB, st')).
Proof.
  intros T St NT d k ref n i name_ cb st; unfold UserDefined, base_decomposer, ret; cbn [d_names d_serie].
  split; [reflexivity|]; split; [reflexivity|]; split; [|split; [|split; [|split; [|split]]]].
  - intros H; destruct (Z.eqb_spec k i); [contradiction|]; split; reflexivity.
  - intros H; destruct (String.eqb_spec name_ n); [congruence|]; cbn [negb]; rewrite Bool.orb_true_r; reflexivity.
  - rewrite Z.eqb_refl, String.eqb_refl; reflexivity.
  - intros s st' E; rewrite Z.eqb_refl; cbn [negb]; unfold mbind; rewrite E; destruct (isValid s); reflexivity.
  - intros e st' E; rewrite Z.eqb_refl; cbn [negb]; unfold mbind; rewrite E; reflexivity.
  - intros st' E; rewrite Z.eqb_refl; cbn [negb]; unfold mbind; rewrite E; reflexivity.
Qed.
Print Assumptions C106_user.

(** EigenValues answers requests of scalars, EigenVectors requests of three numbers, and no others *)
Theorem C97_requests :
  forall {T St : Type} {NT : Num T} (d : Dataframe T) n rows i k name (st : St),
  (reachable d -> repr (df_get d n) 6 rows -> (1 <= i <= 3)%nat ->
    d_serie EigenValues d 1 (n +++ String.String (Ascii.ascii_of_nat i) "") st = (let* e := eigenValues (df_get d n) in component (Z.of_nat (i - 1)) e, st) /\
    d_serie EigenVectors d 3 (n +++ String.String (Ascii.ascii_of_nat i) "") st = (let* e := eigenVectors (df_get d n) in component (Z.of_nat (i - 1)) e, st)) /\
  (k <> 1 -> d_serie EigenValues d k name st = (Ok (mk 0 [] 3), st)) /\
  (k <> 3 -> d_serie EigenVectors d k name st = (Ok (mk 0 [] 3), st)).
Proof.
  intros T St NT d n rows i k name st; unfold EigenValues, EigenVectors, lift; cbn [d_serie]; split; [|split].
  - intros Hd Hs Hi; destruct (C97_control_character_partial d n rows i Hd Hs Hi) as [-> ->]; split; reflexivity.
  - intros Hk; unfold eigen_serie; destruct (Z.eqb_spec k 1); [contradiction|reflexivity].
  - intros Hk; unfold eigen_serie; destruct (Z.eqb_spec k 3); [contradiction|reflexivity].
Qed.
Print Assumptions C97_requests.

Example C106_example :
  let d := df_of [("S", mk 6 [[#1; #2; #3; #4; #5; #6]] 3); ("positions", mk 3 [[#1; #2; #3]] 3)] in
  ~ reserved "S" /\ In (dimension (df_get d "S"), itemSize (df_get d "S"), ["xx"; "xy"; "xz"; "yy"; "yz"; "zz"]) layouts /\
  run (d_names Components d 1 (0, df_get d "S") "S") = Ok ["Sxx"; "Sxy"; "Sxz"; "Syy"; "Syz"; "Szz"] /\
  run (d_names EigenValues d 1 (0, df_get d "S") "S") = Ok ["S1"; "S2"; "S3"] /\ df_contains_name d "positions" = true.
Proof. split; [intros [H|H]; discriminate H|]; split; [cbn; tauto|split; [reflexivity|split; reflexivity]]. Qed.
