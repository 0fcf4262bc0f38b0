(** * C125: the listing of the attribute manager in the documentation. *)
From Verif Require Import Base Num Serie Functional Eigen Spec BaseFacts SerieFacts F64 Props_Functional Dataframe Props_Dataframe Attributes Props_Serie Props_Components.
From Coq Require String Ascii.
Import String.StringSyntax Ascii.AsciiSyntax.
Local Open Scope string_scope.
Local Open Scope list_scope.
Open Scope Z_scope.
Opaque f64_of_Z.
#[local] Existing Instance F64N.

(** ** The program of include/dataframe/attributes/README.md, for any data; the addresses are those of the nodes *)
Section Listing.
  Context {T St : Type} {NT : Num T}.
  Definition documented_frame (a1 a2 a3 : Z) (positions indices S : Serie T) : Dataframe T :=
    df_add a3 (df_add a2 (df_add a1 (df_new 0) "positions" positions) "indices" indices) "S" S.
  Definition documented_decomposers (normals : string) : list (decomposer T St) :=
    [Coordinates ["x"; "y"; "z"]; Components; EigenValues; EigenVectors; Normals normals; Area "area"].
End Listing.
(** the names it prints, by item size *)
Definition documented_names (k : Z) : list string :=
  if k =? 1 then ["S1"; "S2"; "S3"; "Sxx"; "Sxy"; "Sxz"; "Syy"; "Syz"; "Szz"; "area"; "x"; "y"; "z"]
  else if k =? 3 then ["S1"; "S2"; "S3"; "normals"]
  else ["S"].
(** the names of the scalars printed by the main README, whose normals are called n *)
Definition documented_names_main : list string :=
  ["Sxx"; "Sxy"; "Sxz"; "Syy"; "Syz"; "Szz"; "S1"; "S2"; "S3"; "x"; "y"; "z"; "nx"; "ny"; "nz"].

Lemma frame_series {T} {NT : Num T} a1 a2 a3 (p i s : Serie T) :
  itemSize p = 3 -> itemSize i = 3 -> itemSize s = 6 ->
  exists p' i' s', df_series (documented_frame a1 a2 a3 p i s) = [("S", (a3, s')); ("indices", (a2, i')); ("positions", (a1, p'))] /\
    itemSize p' = 3 /\ itemSize i' = 3 /\ itemSize s' = 6 /\ dimension p' = 3 /\ dimension i' = 3 /\ dimension s' = 3 /\
    s_ p' = s_ p /\ count_ p' = count_ p /\ s_ i' = s_ i /\ count_ i' = count_ i /\ s_ s' = s_ s /\ count_ s' = count_ s.
Proof.
  intros Hp Hi Hs; exists (serie_assign serie_default p), (serie_assign serie_default i), (serie_assign serie_default s).
  repeat split; assumption.
Qed.
Ltac open_frame := match goal with |- context [documented_frame ?a1 ?a2 ?a3 ?p ?i ?s] =>
  destruct (frame_series a1 a2 a3 p i s) as (p' & i' & s' & E & Ip & Ii & Is & Dp & Di & Ds & _); [assumption|assumption|assumption|];
  destruct (documented_frame a1 a2 a3 p i s) as [c l]; cbn [df_series] in E; subst l end.

Theorem C125_listing_partial :
  forall {T St : Type} {NT : Num T} a1 a2 a3 (positions indices S : Serie T) k (st : St),
  itemSize positions = 3 -> itemSize indices = 3 -> itemSize S = 6 -> k = 1 \/ k = 3 \/ k = 6 ->
  manager_names (documented_frame a1 a2 a3 positions indices S) (documented_decomposers "normals") 3 k st = (Ok (documented_names k), st).
Proof.
  intros T St NT a1 a2 a3 p i s k st Hp Hi Hs Hk; open_frame; unfold manager_names, documented_decomposers.
  destruct Hk as [->|[->| ->]]; cbn -[itemSize dimension]; unfold components_names, eigen_names; cbn -[itemSize dimension nameOfSerie]; rewrite ?Ip, ?Ii, ?Is, ?Dp, ?Di, ?Ds; cbn -[nameOfSerie].
  all: rewrite ?Bool.andb_false_r; cbn -[nameOfSerie]; reflexivity.
Qed.
Print Assumptions C125_listing_partial.

(** what the listed names stand for: the components, the coordinates and the tensor itself resolve *)
Theorem C125_resolved_partial :
  forall {T St : Type} {NT : Num T} a1 a2 a3 (positions indices S : Serie T) rows prows (st : St),
  repr S 6 rows -> asArray S = concat rows -> rows <> [] -> repr positions 3 prows -> prows <> [] -> itemSize indices = 3 ->
  let d := documented_frame a1 a2 a3 positions indices S in
  let ask k name := manager_serie d (documented_decomposers "normals") k name st in
  (forall j n, nth_error ["Sxx"; "Sxy"; "Sxz"; "Syy"; "Syz"; "Szz"] j = Some n -> delivers (fst (ask 1 n)) j rows) /\
  (forall j n, nth_error ["x"; "y"; "z"] j = Some n -> delivers (fst (ask 1 n)) j prows) /\
  exists s, ask 6 "S" = (Ok s, st) /\ repr s 6 rows.
Proof.
  intros T St NT a1 a2 a3 p i s rows prows st Rs As Hr Rp Hpr Hi d ask.
  pose proof (repr_itemSize _ _ _ Rs) as Hs; pose proof (repr_itemSize _ _ _ Rp) as Hp.
  assert (Rd : reachable d) by (exists 0, [DAdd a1 "positions" p; DAdd a2 "indices" i; DAdd a3 "S" s]; split; [repeat constructor|reflexivity]).
  assert (Gs : repr (df_get d "S") 6 rows) by exact Rs.
  assert (Gp : repr (df_get d "positions") 3 prows) by exact Rp.
  assert (Es : forall k n, k = 1 -> stored_serie k n (df_series d) = Ok None).
  { intros k n ->; destruct (frame_series a1 a2 a3 p i s Hp Hi Hs) as (p' & i' & s' & E & Ip & Ii & Is & _); unfold d; rewrite E.
    cbn [stored_serie]; rewrite Ip, Ii, Is; reflexivity. }
  split; [|split].
  - intros j n Hn; unfold ask, manager_serie, mbind, lift; rewrite Es by reflexivity.
    assert (Hc : exists c, n = "S" +++ c /\ In (c, j) sym_layout /\ ~ In n ["x"; "y"; "z"]).
    { destruct j as [|[|[|[|[|[|j]]]]]]; cbn in Hn; try (destruct j; discriminate Hn); injection Hn as <-; eexists; (split; [reflexivity|split; [cbn; tauto|]]); cbn [In]; intuition discriminate. }
    destruct Hc as (c & -> & Hin & Hx).
    assert (D : delivers (components_serie d 1 ("S" +++ c)) j rows) by (apply C94_symmetric_partial; auto; intros a [<-|[<-|[<-|[]]]]; reflexivity).
    assert (Nd : NoDup ["x"; "y"; "z"]) by (repeat constructor; cbn [In]; intuition discriminate).
    destruct (C96_coordinates (St := St) d prows "x" "y" "z" Gp Hpr Nd) as (_ & _ & _ & N & _).
    destruct (N 1 ("S" +++ c) (or_intror Hx)) as (q & Eq & Vq).
    unfold documented_decomposers; cbn [first_valid Coordinates d_serie]; unfold mbind, lift; rewrite Eq, Vq.
    cbn [first_valid Components d_serie]; unfold mbind, lift; destruct D as (xs & Ex & Fx); rewrite Ex.
    replace (isValid (mk 1 (col xs) 3)) with true by reflexivity; exists xs; split; [reflexivity|exact Fx].
  - intros j n Hn; unfold ask, manager_serie, mbind, lift; rewrite Es by reflexivity.
    assert (Nd : NoDup ["x"; "y"; "z"]) by (repeat constructor; cbn [In]; intuition discriminate).
    destruct (C96_coordinates (St := St) d prows "x" "y" "z" Gp Hpr Nd) as (D0 & D1 & D2 & _).
    assert (D : delivers (coordinates_serie ["x"; "y"; "z"] d 1 n) j prows).
    { destruct j as [|[|[|j]]]; cbn in Hn; try (destruct j; discriminate Hn); injection Hn as <-; assumption. }
    unfold documented_decomposers; cbn [first_valid Coordinates d_serie]; unfold mbind, lift; destruct D as (xs & Ex & Fx); rewrite Ex.
    replace (isValid (mk 1 (col xs) 3)) with true by reflexivity; exists xs; split; [reflexivity|exact Fx].
  - destruct (frame_series a1 a2 a3 p i s Hp Hi Hs) as (p' & i' & s' & E & Ip & Ii & Is & _ & _ & _ & _ & _ & _ & _ & As' & _).
    unfold ask, manager_serie, mbind, lift, d; rewrite E; cbn [stored_serie]; rewrite Is; cbn [Z.eqb Pos.eqb andb String.eqb Ascii.eqb Bool.eqb].
    unfold d, df_get in Gs; rewrite E in Gs; cbn [map_find String.eqb Ascii.eqb Bool.eqb snd] in Gs.
    destruct (C06_copies T s' serie_default 6 rows Gs) as (_ & _ & C).
    destruct C as (q & Eq & Rq & _); [lia| |rewrite Eq; cbn [obind]; exists q; split; [reflexivity|exact Rq]].
    unfold asArray in *; rewrite As', As, (len_concat 6) by exact (repr_rows _ _ _ Rs); lia.
Qed.
Print Assumptions C125_resolved_partial.

(** whatever the data, the names of the eigenvalues and of the eigenvectors resolve to nothing *)
Theorem C125_resolved_refuted :
  forall {T St : Type} {NT : Num T} a1 a2 a3 (positions indices S : Serie T) k name (st : St),
  itemSize positions = 3 -> itemSize indices = 3 -> itemSize S = 6 ->
  In k [1; 3] -> In name ["S1"; "S2"; "S3"] ->
  let d := documented_frame a1 a2 a3 positions indices S in
  In name (documented_names k) /\
  exists s, manager_serie d (documented_decomposers "normals") k name st = (Ok s, st) /\ isValid s = false.
Proof.
  intros T St NT a1 a2 a3 p i s k name st Hp Hi Hs Hk Hn d.
  split; [cbn [In] in *; destruct Hk as [<-|[<-|[]]], Hn as [<-|[<-|[<-|[]]]]; cbn; tauto|].
  exists serie_default; split; [|reflexivity].
  assert (Ev : forall wanted eigen, eigen_serie wanted eigen d k name = Ok serie_default).
  { intros wanted eigen; unfold eigen_serie; destruct (negb (k =? wanted)); [reflexivity|].
    assert (El : exists z, last_id name = Ok z /\ 3 < z) by (cbn [In] in Hn; destruct Hn as [<-|[<-|[<-|[]]]]; eexists; split; reflexivity).
    destruct El as (z & -> & Hz); cbn [obind]; destruct (negb _); [reflexivity|].
    destruct (Z.ltb_spec 3 z); [|lia]; destruct (Z.ltb_spec 2 z); [|lia]; rewrite !Bool.orb_true_r; destruct (_ =? 2); reflexivity. }
  assert (Ec : components_serie d k name = Ok serie_default).
  { unfold components_serie; cbn [In] in Hk; destruct Hk as [<-|[<-|[]]]; [|reflexivity].
    cbn [In] in Hn; destruct Hn as [<-|[<-|[<-|[]]]].
    all: cbn [Z.ltb Z.compare Pos.compare Pos.compare_cont]; cbv zeta.
    all: match goal with |- context [chop 1 ?n] => change (chop 1 n) with "S"; change (chop 2 n) with "" end.
    all: change (df_get d "") with (@serie_default T NT); change (isValid (serie_assign (serie_copy (df_get d "S")) (@serie_default T NT))) with false; cbv iota.
    all: change (map to_string (iota 1)) with ["0"].
    all: destruct (isValid (serie_copy (df_get d "S"))), (isValid (serie_assign (serie_assign (serie_copy (df_get d "S")) serie_default) (df_get d "S"))); try destruct (dimension _ =? 2); reflexivity. }
  assert (Es : stored_serie k name (df_series d) = Ok None).
  { destruct (frame_series a1 a2 a3 p i s Hp Hi Hs) as (p' & i' & s' & E & Ip & Ii & Is & _); unfold d; rewrite E; cbn [stored_serie]; rewrite Ip, Ii, Is.
    cbn [In] in Hk, Hn; destruct Hk as [<-|[<-|[]]], Hn as [<-|[<-|[<-|[]]]]; reflexivity. }
  assert (Ep : coordinates_serie ["x"; "y"; "z"] d k name = Ok serie_default).
  { unfold coordinates_serie; cbn [In] in Hk, Hn; destruct Hk as [<-|[<-|[]]]; [|reflexivity]; destruct Hn as [<-|[<-|[<-|[]]]]; reflexivity. }
  assert (En : normals_serie "normals" d k name = Ok serie_default /\ area_serie "area" d k name = Ok serie_default).
  { unfold normals_serie, area_serie; cbn [In] in Hn; destruct Hn as [<-|[<-|[<-|[]]]]; split; reflexivity. }
  destruct En as [En Ea]; unfold manager_serie, mbind, lift; rewrite Es; unfold documented_decomposers.
  cbn [first_valid Coordinates Components EigenValues EigenVectors Normals Area d_serie]; unfold mbind, lift, ret.
  rewrite Ep, Ec, !Ev, En, Ea; reflexivity.
Qed.
Print Assumptions C125_resolved_refuted.

(** the scalars of the main README: the components of the normals are not among them *)
Theorem C125_normals_refuted :
  forall {T St : Type} {NT : Num T} a1 a2 a3 (positions indices S : Serie T) (st : St),
  itemSize positions = 3 -> itemSize indices = 3 -> itemSize S = 6 ->
  let ds := [Coordinates ["x"; "y"; "z"]; Components; EigenValues; EigenVectors; Normals "n"] : list (decomposer T St) in
  let d := documented_frame a1 a2 a3 positions indices S in
  exists l, manager_names d ds 3 1 st = (Ok l, st) /\ (forall n, In n documented_names_main <-> In n l \/ In n ["nx"; "ny"; "nz"]) /\
            forall n, In n ["nx"; "ny"; "nz"] -> ~ In n l.
Proof.
  intros T St NT a1 a2 a3 p i s st Hp Hi Hs ds d; unfold d; clear d; open_frame; unfold manager_names, ds; clear ds.
  exists ["S1"; "S2"; "S3"; "Sxx"; "Sxy"; "Sxz"; "Syy"; "Syz"; "Szz"; "x"; "y"; "z"]; split; [|split].
  - cbn -[itemSize dimension]; unfold components_names, eigen_names; cbn -[itemSize dimension nameOfSerie]; rewrite ?Ip, ?Ii, ?Is, ?Dp, ?Di, ?Ds; cbn -[nameOfSerie].
    rewrite ?Bool.andb_false_r; cbn -[nameOfSerie]; reflexivity.
  - intros n; cbn [In documented_names_main]; tauto.
  - intros n Hn Hl; cbn [In] in *; destruct Hn as [<-|[<-|[<-|[]]]]; repeat (destruct Hl as [Hl|Hl]; [discriminate Hl|]); exact Hl.
Qed.
Print Assumptions C125_normals_refuted.

(** the data of include/dataframe/attributes/README.md *)
Example C125_example :
  let p := mk 3 [[#2; #4; #6]; [#3; #6; #9]; [#1; #2; #3]] 3 in let i := mk 3 [[#0; #1; #2]] 3 in
  let s := mk 6 [[#2; #4; #6; #3; #6; #9]; [#1; #2; #3; #4; #5; #6]; [#9; #8; #7; #6; #5; #4]] 3 in
  repr p 3 [[#2; #4; #6]; [#3; #6; #9]; [#1; #2; #3]] /\ itemSize i = 3 /\ asArray s = concat [[#2; #4; #6; #3; #6; #9]; [#1; #2; #3; #4; #5; #6]; [#9; #8; #7; #6; #5; #4]] /\
  run (manager_names (documented_frame 0 1 2 p i s) (documented_decomposers "normals") 3 3) = Ok ["S1"; "S2"; "S3"; "normals"] /\
  run (manager_serie (documented_frame 0 1 2 p i s) (documented_decomposers "normals") 1 "Syz") = Ok (mk 1 (col [#6; #5; #5]) 3).
Proof. split; [repr_ex|]; repeat split. Qed.
