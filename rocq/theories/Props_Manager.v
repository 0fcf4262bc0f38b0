(** * C92, C93: the attribute manager. *)
From Verif Require Import Base Num Serie Functional Spec BaseFacts SerieFacts FunctionalFacts MinMaxFacts F64 Props_Serie Props_Functional Dataframe Props_Dataframe Attributes.
From Coq Require Import Sorting.Sorted.
From Coq Require String Ascii.
Import String.StringSyntax.
Open Scope Z_scope.
Opaque f64_of_Z.

(** ** Specification *)
Section Spec.
  Context {T St : Type} {NT : Num T}.
  (** one question: a decomposer and a stored Serie with its name *)
  Definition question : Type := decomposer T St * entry T.
  (** every stored Serie is shown to every decomposer, in order *)
  Definition questions (es : list (entry T)) (ds : list (decomposer T St)) : list question :=
    flat_map (fun e => map (fun dec => (dec, e)) ds) es.
  (** what the decomposer answers *)
  Definition ask (d : Dataframe T) (k : Z) (q : question) (_ : Z) : M St (list string) :=
    d_names (fst q) d k (snd (snd q)) (fst (snd q)).
  (** a stored Serie is listed when size and dimension fit and it is no geometry *)
  Definition listed (d : Dataframe T) (dim k : Z) (n : string) : Prop :=
    exists a s, In (n, (a, s)) (df_series d) /\ itemSize s = k /\ dimension s = dim /\ n <> "positions"%string /\ n <> "indices"%string.
End Spec.

(** ** Sets of names *)
Lemma insert_in x l n : In n (set_insert x l) <-> n = x \/ In n l.
Proof.
  induction l as [|y l IH]; cbn [set_insert]; [cbn; intuition|].
  destruct (String.compare x y) eqn:E; cbn [In]; [apply String.compare_eq_iff in E; subst; intuition|intuition|rewrite IH; intuition].
Qed.
Lemma insert_sorted x l : StronglySorted name_lt l -> StronglySorted name_lt (set_insert x l).
Proof.
  induction 1 as [|y l Hs IH Hf]; cbn [set_insert]; [repeat constructor|].
  destruct (String.compare x y) eqn:E.
  - constructor; assumption.
  - constructor; [constructor; assumption|]; constructor; [exact E|].
    eapply Forall_impl; [|exact Hf]; intros z Hz; eapply name_lt_trans; [exact E|exact Hz].
  - constructor; [exact IH|]; apply Forall_forall; intros z Hz; apply insert_in in Hz; destruct Hz as [->|Hz].
    + apply name_gt; exact E.
    + rewrite Forall_forall in Hf; apply Hf; exact Hz.
Qed.
Lemma inserts_in xs : forall l n, In n (fold_left (fun names x => set_insert x names) xs l) <-> In n xs \/ In n l.
Proof. induction xs as [|x xs IH]; intros l n; cbn [fold_left In]; [intuition|]; rewrite IH, insert_in; intuition. Qed.
Lemma inserts_sorted xs : forall l, StronglySorted name_lt l -> StronglySorted name_lt (fold_left (fun names x => set_insert x names) xs l).
Proof. induction xs as [|x xs IH]; intros l Hl; cbn [fold_left]; [exact Hl|apply IH, insert_sorted, Hl]. Qed.

Section Names.
  Context {T St : Type} {NT : Num T}.
  Variables (d : Dataframe T) (dim k : Z).
  Notation dec := (decomposer T St).

  (** ask without the number of the question *)
  Lemma calls_app_split {A B} (f : A -> Z -> M St B) l r st ys st' : calls f (l ++ r) st ys st' ->
    exists y1 y2 st1, ys = y1 ++ y2 /\ calls f l st y1 st1 /\ calls f r st1 y2 st'.
  Proof.
    revert st ys; induction l as [|[x i] l IH]; intros st ys H; [exists [], ys, st; repeat split; [constructor|exact H]|].
    inversion H; subst; destruct (IH _ _ ltac:(eassumption)) as (y1 & y2 & s1 & -> & C1 & C2).
    exists (y :: y1), y2, s1; split; [reflexivity|]; split; [econstructor; eassumption|exact C2].
  Qed.

  Lemma inner_ok (e : entry T) (ds : list dec) : forall i st answers st', calls (ask d k) (enum_from i (map (fun q => (q, e)) ds)) st answers st' ->
    forall l, exists l', foldM (fun names q => let! otherNames := d_names q d k (snd e) (fst e) in
        ret (fold_left (fun names x => set_insert x names) otherNames names)) ds l st = (Ok l', st') /\
      (StronglySorted name_lt l -> StronglySorted name_lt l') /\ (forall n, In n l' <-> In n l \/ Exists (In n) answers).
  Proof.
    induction ds as [|q ds IH]; intros i st answers st' H l; cbn [map enum_from] in H; inversion H; subst.
    - exists l; split; [reflexivity|]; split; [auto|]; intros n; rewrite Exists_nil; intuition.
    - destruct (IH _ _ _ _ ltac:(eassumption) (fold_left (fun names x => set_insert x names) y l)) as (l' & E & S & I).
      exists l'; split; [|split].
      + cbn [foldM]; unfold mbind, ret; match goal with Hq : ask _ _ _ _ _ = _ |- _ => unfold ask in Hq; cbn [fst snd] in Hq; rewrite Hq end; exact E.
      + intros Hs; apply S, inserts_sorted, Hs.
      + intros n; rewrite I, inserts_in, Exists_cons; intuition.
  Qed.
  Lemma inner_throw (e : entry T) (ds : list dec) : forall i st x st', calls_throw (ask d k) (enum_from i (map (fun q => (q, e)) ds)) st x st' ->
    forall l, foldM (fun names q => let! otherNames := d_names q d k (snd e) (fst e) in
        ret (fold_left (fun names x => set_insert x names) otherNames names)) ds l st = (Throw x, st').
  Proof.
    induction ds as [|q ds IH]; intros i st x st' H l; cbn [map enum_from] in H; inversion H; subst; cbn [foldM]; unfold mbind, ret;
      match goal with Hq : ask _ _ _ _ _ = _ |- _ => unfold ask in Hq; cbn [fst snd] in Hq; rewrite Hq end; [reflexivity|].
    eapply IH; eassumption.
  Qed.

  (** the name that one entry contributes *)
  Definition own (e : entry T) (n : string) : Prop :=
    n = fst e /\ itemSize (snd (snd e)) = k /\ dimension (snd (snd e)) = dim /\ n <> "positions"%string /\ n <> "indices"%string.
  Lemma own_step (e : entry T) l : let l' := (if (itemSize (snd (snd e)) =? k) && (dimension (snd (snd e)) =? dim) then
        if negb (String.eqb (fst e) "positions") && negb (String.eqb (fst e) "indices") then set_insert (fst e) l else l else l) in
    (StronglySorted name_lt l -> StronglySorted name_lt l') /\ (forall n, In n l' <-> own e n \/ In n l).
  Proof.
    cbv zeta; unfold own.
    destruct (Z.eqb_spec (itemSize (snd (snd e))) k), (Z.eqb_spec (dimension (snd (snd e))) dim); cbn [andb]; try (split; [exact (fun h => h)|intros n'; intuition congruence]).
    destruct (String.eqb_spec (fst e) "positions"), (String.eqb_spec (fst e) "indices"); cbn [negb andb]; try (split; [exact (fun h => h)|intros n'; intuition congruence]).
    split; [apply insert_sorted|intros m; rewrite insert_in; intuition congruence].
  Qed.

  Lemma enum_from_app' {A} i (l r : list A) : enum_from i (l ++ r) = enum_from i l ++ enum_from (i + len l) r.
  Proof. apply enum_from_app. Qed.

  Lemma outer_ok (ds : list dec) (es : list (entry T)) : forall i st answers st', calls (ask d k) (enum_from i (questions es ds)) st answers st' ->
    forall l, exists l', foldM (fun names (e : entry T) =>
      let '(name, (a, s)) := e in
      let names := if (itemSize s =? k) && (dimension s =? dim) then
                     if negb (String.eqb name "positions") && negb (String.eqb name "indices") then set_insert name names else names
                   else names in
      foldM (fun names q =>
        let! otherNames := d_names q d k (a, s) name in
        ret (fold_left (fun names x => set_insert x names) otherNames names)) ds names) es l st = (Ok l', st') /\
      (StronglySorted name_lt l -> StronglySorted name_lt l') /\ (forall n, In n l' <-> In n l \/ Exists (fun e => own e n) es \/ Exists (In n) answers).
  Proof.
    induction es as [|e es IH]; intros i st answers st' H l; cbn [questions flat_map] in H.
    - inversion H; subst; exists l; split; [reflexivity|]; split; [auto|]; intros n; rewrite !Exists_nil; intuition.
    - change (flat_map (fun e => map (fun dec => (dec, e)) ds) es) with (questions es ds) in H; rewrite enum_from_app' in H; apply calls_app_split in H.
      destruct H as (y1 & y2 & st1 & -> & C1 & C2).
      destruct (own_step e l) as (S0 & I0).
      destruct (inner_ok e ds _ _ _ _ C1 (if (itemSize (snd (snd e)) =? k) && (dimension (snd (snd e)) =? dim) then
        if negb (String.eqb (fst e) "positions") && negb (String.eqb (fst e) "indices") then set_insert (fst e) l else l else l)) as (l1 & E1 & S1 & I1).
      destruct (IH _ _ _ _ C2 l1) as (l2 & E2 & S2 & I2).
      exists l2; split; [|split; [auto|]].
      + destruct e as [name [a s]]; cbn [fst snd] in E1; cbn [foldM]; unfold mbind at 1; rewrite E1; exact E2.
      + intros n; rewrite I2, I1, I0, Exists_cons, Exists_app; intuition.
  Qed.
End Names.

(** ** C92 *)
(** the decomposers may have effects; the answers are those they give when asked in order *)
Theorem C92_names :
  forall {T St : Type} {NT : Num T} (d : Dataframe T) (ds : list (decomposer T St)) dim k st answers st',
  calls (ask d k) (enum (questions (df_series d) ds)) st answers st' ->
  exists l, manager_names d ds dim k st = (Ok l, st') /\
    StronglySorted name_lt l /\
    (forall n, In n l <-> listed d dim k n \/ Exists (In n) answers) /\
    (forall n, exists b, manager_contains d ds dim k n st = (Ok b, st') /\ (b = true <-> In n l)).
Proof.
  intros T St NT d ds dim k st answers st' H; destruct (outer_ok d dim k ds (df_series d) _ _ _ _ H []) as (l & E & S & I).
  exists l; split; [exact E|]; split; [apply S; constructor|]; split.
  - intros n; rewrite I; cbn [In].
    assert (L : listed d dim k n <-> Exists (fun e => own dim k e n) (df_series d)); [|tauto].
    unfold listed; rewrite Exists_exists; split.
    + intros (a & s & Hin & Hk & Hd & Hp & Hi); exists (n, (a, s)); split; [exact Hin|]; unfold own; cbn [fst snd]; tauto.
    + intros ([n' [a s]] & Hin & Ho); unfold own in Ho; cbn [fst snd] in Ho; destruct Ho as (-> & ?); exists a, s; tauto.
  - intros n; exists (existsb (String.eqb n) l); split.
    + unfold manager_contains, mbind; unfold manager_names in *; rewrite E; reflexivity.
    + rewrite existsb_exists; split; [intros (x & Hin & Hx); apply String.eqb_eq in Hx; subst; exact Hin|intros Hin; exists n; split; [exact Hin|apply String.eqb_refl]].
Qed.
Print Assumptions C92_names.

(** increasing means without repetition *)
Theorem C92_no_repetition : forall l, StronglySorted name_lt l -> NoDup l.
Proof.
  induction 1 as [|x l Hs IH Hf]; constructor; [|exact IH].
  intros Hin; rewrite Forall_forall in Hf; exact (name_lt_irrefl x (Hf x Hin)).
Qed.
Print Assumptions C92_no_repetition.

(** a Dataframe forgets dimensions (C50): a Manager for any dimension but 3 lists no stored Serie at all *)
Theorem C92_other_dimension :
  forall {T : Type} {NT : Num T} c0 (cs : list (dcall T)) dim k n, Forall keeps_dim cs -> dim <> 3 ->
  ~ listed (drun cs (df_new c0)) dim k n.
Proof.
  intros T NT c0 cs dim k n Hk Hd (a & s & Hin & _ & Hs & _).
  pose proof (C50_dimension_partial T NT c0 cs n Hk) as H3.
  assert (Ho : ordered (df_series (drun cs (df_new c0)))) by (apply run_ordered; constructor).
  unfold df_get in H3; rewrite (in_find _ n (a, s) Ho Hin) in H3; cbn [snd] in H3; congruence.
Qed.
Print Assumptions C92_other_dimension.

(** ** C93 *)
Lemma stored_serie_find {T} {NT : Num T} k name (l : list (entry T)) : ordered l ->
  stored_serie k name l = match map_find name l with
                          | Some c => if itemSize (snd c) =? k then let* r := clone (snd c) in Ok (Some r) else Ok None
                          | None => Ok None
                          end.
Proof.
  induction l as [|[n [a s]] l IH]; intros Ho; cbn [stored_serie map_find]; [reflexivity|].
  inversion Ho as [|? ? Ho' Hlt]; subst; rewrite (String.eqb_sym name n); destruct (String.eqb_spec n name) as [->|Hne].
  - rewrite Bool.andb_true_r; cbn [snd]; destruct (itemSize s =? k); [reflexivity|].
    rewrite (IH Ho'); replace (map_find name l) with (@None (Z * Serie T)); [reflexivity|].
    symmetry; apply find_none; intros Hin; cbn [names map fst] in Hlt; rewrite Forall_forall in Hlt; exact (name_lt_irrefl name (Hlt name Hin)).
  - rewrite Bool.andb_false_r; apply IH; exact Ho'.
Qed.

(** a stored Serie wins, nobody is asked *)
Theorem C93_stored_partial :
  forall {T St : Type} {NT : Num T} (d : Dataframe T) (ds : list (decomposer T St)) k name a s rows st,
  ordered (df_series d) -> map_find name (df_series d) = Some (a, s) -> 1 <= k -> repr s k rows -> len (asArray s) < k * len rows + k ->
  exists c, manager_serie d ds k name st = (Ok c, st) /\ repr c k rows.
Proof.
  intros T St NT d ds k name a s rows st Ho Hf Hk Hs Hl.
  destruct (proj2 (proj2 (C06_copies T s s k rows Hs)) Hk Hl) as (c & E & Hc & _); exists c; split; [|exact Hc].
  unfold manager_serie; rewrite (stored_serie_find k name (df_series d) Ho), Hf; cbn [snd]; rewrite (repr_itemSize _ _ _ Hs), Z.eqb_refl, E; reflexivity.
Qed.
Print Assumptions C93_stored_partial.

(** item size 0: a look-up through a non-const Dataframe stores a Serie without item size, copying it divides by zero *)
Theorem C93_size_zero_refuted :
  exists (d : Dataframe F64) s, map_find "a"%string (df_series d) = Some s /\ itemSize (snd s) = 0 /\
    forall (St : Type) (ds : list (decomposer F64 St)) st, fst (manager_serie (H := F64N) d ds 0 "a"%string st) = UB.
Proof. exists (drun (H := F64N) [DRef 1 "a"%string] (df_new 0)); eexists; split; [reflexivity|split; [reflexivity|]]; reflexivity. Qed.
Print Assumptions C93_size_zero_refuted.

(** no stored Serie of that name and size *)
Definition not_stored {T} {NT : Num T} (d : Dataframe T) (k : Z) (name : string) : Prop :=
  forall c, map_find name (df_series d) = Some c -> itemSize (snd c) <> k.
Definition request {T St} {NT : Num T} (d : Dataframe T) (k : Z) (name : string) (dec : decomposer T St) (_ : Z) : M St (Serie T) := d_serie dec d k name.

Lemma not_stored_first {T St} {NT : Num T} (d : Dataframe T) (ds : list (decomposer T St)) k name st : ordered (df_series d) -> not_stored d k name ->
  manager_serie d ds k name st = first_valid ds d k name st.
Proof.
  intros Ho Hn; unfold manager_serie; rewrite (stored_serie_find k name (df_series d) Ho).
  destruct (map_find name (df_series d)) as [c|] eqn:E; [|reflexivity]; destruct (Z.eqb_spec (itemSize (snd c)) k) as [Hk|]; [exfalso; exact (Hn c E Hk)|reflexivity].
Qed.
Lemma first_valid_skip {T St} {NT : Num T} (d : Dataframe T) (ds more : list (decomposer T St)) k name : forall i st ss st1,
  calls (request d k name) (enum_from i ds) st ss st1 -> Forall (fun s => isValid s = false) ss ->
  first_valid (ds ++ more) d k name st = first_valid more d k name st1.
Proof.
  induction ds as [|q ds IH]; intros i st ss st1 H Hf; cbn [enum_from] in H; inversion H; subst; [reflexivity|]; inversion Hf; subst.
  cbn [app first_valid]; unfold mbind.
  match goal with Hq : request _ _ _ _ _ _ = _ |- _ => unfold request in Hq; rewrite Hq end.
  match goal with Hv : isValid _ = false |- _ => rewrite Hv end; eapply IH; eassumption.
Qed.

(** the first decomposer with a valid answer answers; those after it are not asked *)
Theorem C93_first_answer :
  forall {T St : Type} {NT : Num T} (d : Dataframe T) (before after : list (decomposer T St)) dec k name st ss st1 s st2,
  ordered (df_series d) -> not_stored d k name ->
  calls (request d k name) (enum before) st ss st1 -> Forall (fun s => isValid s = false) ss ->
  d_serie dec d k name st1 = (Ok s, st2) -> isValid s = true ->
  manager_serie d (before ++ dec :: after) k name st = (Ok s, st2).
Proof.
  intros T St NT d before after dec k name st ss st1 s st2 Ho Hn Hc Hf Hd Hv.
  rewrite not_stored_first by assumption; erewrite first_valid_skip by eassumption; cbn [first_valid]; unfold mbind; rewrite Hd, Hv; reflexivity.
Qed.
Print Assumptions C93_first_answer.
(** nobody answers *)
Theorem C93_no_answer :
  forall {T St : Type} {NT : Num T} (d : Dataframe T) (ds : list (decomposer T St)) k name st ss st1,
  ordered (df_series d) -> not_stored d k name ->
  calls (request d k name) (enum ds) st ss st1 -> Forall (fun s => isValid s = false) ss ->
  exists s, manager_serie d ds k name st = (Ok s, st1) /\ isValid s = false.
Proof.
  intros T St NT d ds k name st ss st1 Ho Hn Hc Hf; exists serie_default; split; [|reflexivity].
  rewrite not_stored_first by assumption; rewrite <- (app_nil_r ds); erewrite first_valid_skip by eassumption; reflexivity.
Qed.
Print Assumptions C93_no_answer.
(** an exception of a decomposer that is asked passes through *)
Theorem C93_exception :
  forall {T St : Type} {NT : Num T} (d : Dataframe T) (before after : list (decomposer T St)) dec k name st ss st1 x st2,
  ordered (df_series d) -> not_stored d k name ->
  calls (request d k name) (enum before) st ss st1 -> Forall (fun s => isValid s = false) ss ->
  d_serie dec d k name st1 = (Throw x, st2) ->
  manager_serie d (before ++ dec :: after) k name st = (Throw x, st2).
Proof.
  intros T St NT d before after dec k name st ss st1 x st2 Ho Hn Hc Hf Hd.
  rewrite not_stored_first by assumption; erewrite first_valid_skip by eassumption; cbn [first_valid]; unfold mbind; rewrite Hd; reflexivity.
Qed.
Print Assumptions C93_exception.
(** decomposers added at the end do not change a valid answer *)
Theorem C93_adding :
  forall {T St : Type} {NT : Num T} (d : Dataframe T) (ds more : list (decomposer T St)) k name st s st',
  manager_serie d ds k name st = (Ok s, st') -> isValid s = true ->
  manager_serie d (ds ++ more) k name st = (Ok s, st').
Proof.
  intros T St NT d ds more k name st s st' H Hv; unfold manager_serie, mbind in *; destruct (lift _ st) as [[[c|]|x|] st1]; try exact H.
  revert st1 H; induction ds as [|q ds IH]; intros st1 H; cbn [app first_valid] in *.
  - injection H as <- <-; discriminate Hv.
  - unfold mbind in *; destruct (d_serie q d k name st1) as [[r|x|] st2]; try discriminate H; destruct (isValid r); [exact H|apply IH; exact H].
Qed.
Print Assumptions C93_adding.

(** a Dataframe with two Series; a decomposer that answers nothing and one that counts the questions *)
Example C92_C93_example :
  let d := drun (H := F64N) [DAdd 1 "b"%string (mk 1 (col [#1; #2]) 3); DAdd 2 "a"%string (mk 3 [[#1; #2; #3]] 3)] (df_new 0) in
  let u : decomposer F64 Z := @UserDefined F64 F64N Z 1 "u"%string (fun _ n => (Ok (mk 1 (col [#7]) 3), n + 1)) in
  let base := @base_decomposer F64 F64N Z in
  ordered (df_series d) /\ not_stored (NT := F64N) d 1 "u"%string /\
  manager_names d [base; u] 3 1 0 = (Ok ["b"; "u"]%string, 2) /\
  calls (ask d 1) (enum (questions (df_series d) [base; u])) 0 [[]; ["u"%string]; []; ["u"%string]] 2 /\
  manager_serie (H := F64N) d [base; u; base] 1 "u"%string 0 = (Ok (mk 1 (col [#7]) 3), 1) /\
  map_find "a"%string (df_series d) = Some (2, mk 3 [[#1; #2; #3]] 3) /\ repr (mk 3 [[#1; #2; #3]] 3) 3 [[#1; #2; #3]].
Proof.
  cbv zeta; split; [repeat constructor|]; split; [intros c Hc; discriminate Hc|]; split; [reflexivity|]; split; [repeat (econstructor; [reflexivity|]); constructor|].
  split; [reflexivity|]; split; [reflexivity|repr_ex].
Qed.
