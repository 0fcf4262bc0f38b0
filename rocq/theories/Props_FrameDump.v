(** * C127: Dataframe::dump. *)
From Verif Require Import Base Num Serie Spec BaseFacts SerieFacts Functional F64 Props_Functional Utils Dataframe Props_Dataframe Streams Props_Streams FrameDump.
From Coq Require Import Sorting.Sorted.
From Coq Require String.
Import String.StringSyntax.
Open Scope Z_scope.
#[local] Existing Instance F64N.
Opaque f64_of_Z.

(** the line of a name and the Serie found under it *)
Definition frame_line {T} (n : string) (s : Serie T) : list (token T) :=
  [Text "name: """; Text n; Text """, itemSize: "; IntT (itemSize s); Text ", count: "; IntT (count s); Endl].

Lemma find_ordered {T} {NT : Num T} (m : list (entry T)) : ordered m -> forall n c, In (n, c) m -> map_find n m = Some c.
Proof.
  intros Ho n c Hin; induction m as [|[k e] m IH]; [destruct Hin|].
  unfold ordered, names in Ho; cbn [map fst] in Ho; apply StronglySorted_inv in Ho; destruct Ho as [Ho Hk]; cbn [map_find].
  destruct Hin as [E|Hin].
  - injection E as -> ->; rewrite String.eqb_refl; reflexivity.
  - destruct (String.eqb_spec k n) as [->|Hne]; [|apply IH; assumption].
    exfalso; rewrite Forall_forall in Hk; specialize (Hk n (in_map fst _ _ Hin)).
    exact (name_lt_irrefl _ Hk).
Qed.

(** One line per stored name in increasing order, with the item size and count of what [get] gives; after any calls. *)
Theorem C127_dump :
  forall (T : Type) (NT : Num T) c0 (cs : list (dcall T)) w, Forall keeps_dim cs ->
  let d := drun cs (df_new c0) in
  exists ns, StronglySorted name_lt ns /\ (forall n, In n ns <-> df_contains_name d n = true) /\
    df_dump d w = (Ok tt, w ++ on Cerr (concat (map (fun n => frame_line n (df_get d n)) ns))).
Proof.
  intros T NT c0 cs w Hk d; destruct (C48_finite_map T NT c0 cs Hk) as (_ & _ & _ & _ & Ho); fold d in Ho.
  exists (names (df_series d)); split; [exact Ho|]; split; [intros n; symmetry; apply contains_names|].
  unfold df_dump; rewrite (loop_put _ (fun e : entry T => on Cerr (frame_line (fst e) (snd (snd e))))) by reflexivity.
  do 2 f_equal; unfold on; rewrite concat_map, map_map; unfold names; rewrite map_map; f_equal.
  apply map_ext_in; intros [n [a s]] Hin; cbn [fst snd]; do 2 f_equal.
  unfold df_get; rewrite (find_ordered (df_series d) Ho n (a, s) Hin); reflexivity.
Qed.
Print Assumptions C127_dump.

Example C127_ex :
  let d := drun [DAdd 10 "x"%string (mk 1 (col [#1; #2]) 3); DAdd 11 "b"%string (mk 2 [[#3; #4]] 3); DRef 12 "q"%string] (df_new 0) in
  df_dump d [] = (Ok tt, on Cerr (frame_line "b"%string (mk 2 [[#3; #4]] 3) ++ frame_line "q"%string serie_default ++ frame_line "x"%string (mk 1 (col [#1; #2]) 3))) /\
  frame_line "b"%string (mk 2 [[#3; #4]] 3) = [Text "name: """; Text "b"; Text """, itemSize: "; IntT 2; Text ", count: "; IntT 1; Endl].
Proof. split; reflexivity. Qed.
