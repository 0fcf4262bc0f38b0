(** * C103, C104: lifetimes of decomposers and of their callbacks. *)
From Verif Require Import Base Num Serie Spec BaseFacts SerieFacts Dataframe Attributes Life F64.
From Coq Require Import Permutation.
From Coq Require String.
Import String.StringSyntax.
Local Open Scope string_scope.
Local Open Scope list_scope.
Open Scope Z_scope.

(** ** C103: ownership *)
(** *** Specification *)
(** the addresses handed to Managers in a history *)
Definition given_by (e : event) : list nat := match e with EManager ds => ds | EAdd _ d => [d] | _ => [] end.
Definition given (es : list event) : list nat := flat_map given_by es.
(** a history of a client that owns every decomposer until it hands it over: [o] decomposers exist, [ms] tells which Managers
    live.  Only existing decomposers and living Managers are used. *)
Fixpoint valid (o : nat) (ms : list bool) (es : list event) : Prop :=
  match es with
  | [] => True
  | ENew _ :: r => valid (S o) ms r
  | EManager ds :: r => Forall (fun d => (d < o)%nat) ds /\ valid o (ms ++ [true]) r
  | EAdd m d :: r => nth_error ms m = Some true /\ (d < o)%nat /\ valid o ms r
  | EClear m :: r => nth_error ms m = Some true /\ valid o ms r
  | ENames m :: r => nth_error ms m = Some true /\ valid o ms r
  | ECopy m :: r => nth_error ms m = Some true /\ valid o (ms ++ [true]) r
  | EDestroy m :: r => nth_error ms m = Some true /\ valid o (upd_nat ms m false) r
  end.
(** Full statement of C103: in every history in which no decomposer is handed over twice, nothing is undefined, and once every
    Manager is destroyed, the decomposers handed over have each been released exactly once. *)
Definition C103_statement : Prop := forall es, valid 0 [] es -> NoDup (given es) ->
  exists w, lrun es world0 = Ok w /\ (Forall (fun m => m = None) (managers w) -> Permutation (released w) (given es)).

(** *** It is false in three ways *)
Theorem C103_refuted : ~ C103_statement.
Proof.
  intros H; destruct (H [ENew Derived; EManager [0%nat]; EDestroy 0]) as (w & E & _).
  - cbn; repeat split; repeat constructor.
  - repeat constructor; intros [].
  - discriminate E.
Qed.
(** any living Manager that holds a decomposer of a derived class: its end is undefined *)
Lemma release_class w d w' : release w d = Ok w' -> forall a o, nth_error (objects w) a = Some o -> exists o', nth_error (objects w') a = Some o' /\ o_class o' = o_class o.
Proof.
  unfold release; destruct (nth_error (objects w) d) as [[[] []]|] eqn:E; try discriminate; intros [= <-] a o Ha; cbn [objects].
  destruct (Nat.eq_dec a d) as [->|Hne].
  - rewrite nth_error_upd_same by (apply nth_error_Some; congruence); eexists; split; [reflexivity|]; rewrite E in Ha; injection Ha as <-; reflexivity.
  - rewrite nth_error_upd_other by congruence; eauto.
Qed.
Lemma release_ub w d : (forall w', release w d <> Ok w') -> release w d = UB.
Proof. unfold release; destruct (nth_error (objects w) d) as [[[] []]|]; intros H; try reflexivity; exfalso; eapply H; reflexivity. Qed.
Lemma foldO_release_derived ds : forall w d o, In d ds -> nth_error (objects w) d = Some o -> o_class o = Derived -> foldO release ds w = UB.
Proof.
  induction ds as [|a ds IH]; intros w d o Hin Hd Hc; [destruct Hin|]; destruct Hin as [->|Hin]; cbn [foldO].
  - assert (E : release w d = UB) by (unfold release; rewrite Hd; destruct o as [[] []]; try discriminate Hc; reflexivity); rewrite E; reflexivity.
  - destruct (release w a) as [w'| |] eqn:E; cbn [obind].
    + destruct (release_class _ _ _ E d o Hd) as (o' & H1 & H2); apply (IH w' d o'); congruence || assumption.
    + exfalso; unfold release in E; destruct (nth_error (objects w) a) as [[[] []]|]; discriminate E.
    + reflexivity.
Qed.
Theorem C103_derived_undefined w m ds d o : nth_error (managers w) m = Some (Some ds) -> In d ds -> nth_error (objects w) d = Some o -> o_class o = Derived ->
  lstep w (EDestroy m) = UB.
Proof. intros Hm Hd Ho Hc; cbn [lstep]; unfold get_manager; rewrite Hm; cbn [obind]; rewrite (foldO_release_derived ds w d o Hd Ho Hc); reflexivity. Qed.
(** a copied Manager: the second of the two ends is undefined *)
Lemma release_dead w d w' : release w d = Ok w' -> forall a, a = d \/ (exists o, nth_error (objects w) a = Some o /\ o_alive o = false) ->
  exists o, nth_error (objects w') a = Some o /\ o_alive o = false.
Proof.
  unfold release; destruct (nth_error (objects w) d) as [[[] []]|] eqn:E; try discriminate; intros [= <-] a Ha; cbn [objects].
  destruct (Nat.eq_dec a d) as [->|Hne].
  - rewrite nth_error_upd_same by (apply nth_error_Some; congruence); eexists; split; reflexivity.
  - rewrite nth_error_upd_other by congruence; destruct Ha as [|Ha]; [contradiction|exact Ha].
Qed.
Lemma foldO_release_dead ds : forall w w', foldO release ds w = Ok w' -> forall a, In a ds \/ (exists o, nth_error (objects w) a = Some o /\ o_alive o = false) ->
  exists o, nth_error (objects w') a = Some o /\ o_alive o = false.
Proof.
  induction ds as [|d ds IH]; intros w w' E a Ha; cbn [foldO] in E.
  - injection E as <-; destruct Ha as [[]|Ha]; exact Ha.
  - destruct (release w d) as [w1| |] eqn:E1; try discriminate E; cbn [obind] in E; apply (IH w1 w' E a).
    destruct Ha as [[->|Ha]|Ha]; [right; apply (release_dead _ _ _ E1); left; reflexivity|left; exact Ha|right; apply (release_dead _ _ _ E1); right; exact Ha].
Qed.
Lemma foldO_release_ub ds : forall w a o, In a ds -> nth_error (objects w) a = Some o -> o_alive o = false -> foldO release ds w = UB.
Proof.
  induction ds as [|d ds IH]; intros w a o Hin Ho Hd; [destruct Hin|]; destruct Hin as [->|Hin]; cbn [foldO].
  - assert (E : release w a = UB) by (unfold release; rewrite Ho; destruct o as [[] []]; try discriminate Hd; reflexivity); rewrite E; reflexivity.
  - destruct (release w d) as [w'| |] eqn:E; cbn [obind].
    + destruct (release_dead _ _ _ E a) as (o' & H1 & H2); [right; exists o; auto|]; apply (IH w' a o'); assumption.
    + exfalso; unfold release in E; destruct (nth_error (objects w) d) as [[[] []]|]; discriminate E.
    + reflexivity.
Qed.
Lemma foldO_release_managers ds : forall w w', foldO release ds w = Ok w' -> managers w' = managers w.
Proof.
  induction ds as [|d ds IH]; intros w w' E; cbn [foldO] in E; [injection E as <-; reflexivity|].
  destruct (release w d) as [w1| |] eqn:E1; try discriminate E; cbn [obind] in E; rewrite (IH _ _ E); unfold release in E1.
  destruct (nth_error (objects w) d) as [[[] []]|]; try discriminate E1; injection E1 as <-; reflexivity.
Qed.
Theorem C103_copy_undefined w m ds : nth_error (managers w) m = Some (Some ds) -> ds <> [] ->
  lrun [ECopy m; EDestroy m; EDestroy (length (managers w))] w = UB.
Proof.
  intros Hm Hne; unfold lrun; cbn [foldO lstep]; unfold get_manager at 1; rewrite Hm; cbn [obind].
  assert (Lt : (m < length (managers w))%nat) by (apply nth_error_Some; congruence).
  unfold get_manager at 1; cbn [managers]; rewrite nth_error_app1, Hm by exact Lt; cbn [obind].
  set (w1 := mkWorld (objects w) (managers w ++ [Some ds]) (released w)).
  destruct (foldO release ds w1) as [w2|e|] eqn:E; cbn [obind]; [| |reflexivity].
  - unfold get_manager, set_manager; cbn [managers]; rewrite nth_error_upd_other by lia; rewrite (foldO_release_managers _ _ _ E); cbn [managers w1].
    rewrite nth_error_app2, Nat.sub_diag by lia; cbn [nth_error obind].
    destruct ds as [|a ds]; [contradiction|].
    destruct (foldO_release_dead _ _ _ E a) as (o & Ho & Hd); [left; left; reflexivity|].
    rewrite (foldO_release_ub (a :: ds) _ a o); [reflexivity|left; reflexivity|exact Ho|exact Hd].
  - exfalso; clear Hm Hne; revert E; generalize w1; clear w1; induction ds as [|d ds IH]; intros v E; cbn [foldO] in E; [discriminate E|].
    destruct (release v d) as [w'| |] eqn:E1; cbn [obind] in E; try discriminate E; [exact (IH _ E)|].
    unfold release in E1; destruct (nth_error (objects v) d) as [[[] []]|]; discriminate E1.
Qed.
(** clear() releases nothing: the decomposers are lost *)
Theorem C103_clear_leaks w m ds : nth_error (managers w) m = Some (Some ds) ->
  exists w', lrun [EClear m; EDestroy m] w = Ok w' /\ objects w' = objects w /\ released w' = released w.
Proof.
  intros Hm; unfold lrun; cbn [foldO lstep]; unfold get_manager at 1; rewrite Hm; cbn [obind].
  unfold get_manager, set_manager; cbn [managers objects released]; rewrite nth_error_upd_same by (apply nth_error_Some; congruence); cbn [obind foldO].
  eexists; split; [reflexivity|split; reflexivity].
Qed.

(** *** It holds for decomposers of the base class, without clear() and copies *)
Definition plain (e : event) : Prop := match e with ENew Derived | EClear _ | ECopy _ => False | _ => True end.

(** the addresses held by the living Managers *)
Definition held (ms : list (option (list nat))) : list nat := flat_map (fun m => match m with Some ds => ds | None => [] end) ms.
Definition living (m : option (list nat)) : bool := match m with Some _ => true | None => false end.
Record owned (w : world) (g : list nat) : Prop := {
  ow_held : Permutation (released w ++ held (managers w)) g;
  ow_objects : forall a, (a < length (objects w))%nat -> nth_error (objects w) a = Some (mkObject Base (if in_dec Nat.eq_dec a (released w) then false else true));
  ow_known : forall a, In a g -> (a < length (objects w))%nat }.

Lemma held_app a b : held (a ++ b) = held a ++ held b.
Proof. apply flat_map_app. Qed.
Lemma nth_split_at {A} (l : list A) n x : nth_error l n = Some x -> exists l1 l2, l = l1 ++ x :: l2 /\ length l1 = n.
Proof. apply nth_error_split. Qed.
Lemma living_true ms m : nth_error (map living ms) m = Some true -> exists ds, nth_error ms m = Some (Some ds).
Proof.
  intros H; destruct (nth_error ms m) as [o|] eqn:E.
  - rewrite (map_nth_error _ _ _ E) in H; destruct o as [ds|]; [eauto|discriminate H].
  - apply nth_error_None in E; assert (X : nth_error (map living ms) m = None) by (apply nth_error_None; rewrite map_length; exact E); congruence.
Qed.
Lemma map_living_upd ms m ds x : nth_error ms m = Some x -> map living (upd_nat ms m ds) = upd_nat (map living ms) m (living ds).
Proof.
  intros H; apply nth_error_split in H as (l1 & l2 & -> & <-); rewrite upd_nat_mid, !map_app; cbn [map]; rewrite <- (map_length living l1), upd_nat_mid; reflexivity.
Qed.

Definition state_ok (w : world) : Prop :=
  forall a, (a < length (objects w))%nat -> nth_error (objects w) a = Some (mkObject Base (if in_dec Nat.eq_dec a (released w) then false else true)).
Lemma releases ds : forall w, state_ok w -> NoDup (released w ++ ds) -> Forall (fun a => (a < length (objects w))%nat) ds ->
  exists w', foldO release ds w = Ok w' /\ managers w' = managers w /\ released w' = released w ++ ds /\ length (objects w') = length (objects w) /\ state_ok w'.
Proof.
  induction ds as [|d ds IH]; intros w Ow Nd Hk.
  - exists w; rewrite app_nil_r; repeat split; exact Ow.
  - apply Forall_cons_iff in Hk as [Hd Hk].
    assert (Hn : ~ In d (released w)).
    { intros Hin; apply NoDup_remove_2 in Nd; apply Nd, in_or_app; left; exact Hin. }
    pose proof (Ow d Hd) as Ho; destruct (in_dec Nat.eq_dec d (released w)) as [|_]; [contradiction|].
    cbn [foldO]; unfold release at 1; rewrite Ho; cbn [obind].
    set (w1 := mkWorld (upd_nat (objects w) d (mkObject Base false)) (managers w) (released w ++ [d])).
    destruct (IH w1) as (w' & E & M & R & L & O).
    + intros a Ha; unfold w1 in *; cbn [objects released] in *; rewrite upd_nat_length in Ha; destruct (Nat.eq_dec a d) as [->|Hne].
      * rewrite nth_error_upd_same by exact Hd; destruct (in_dec _ d _) as [|X]; [reflexivity|exfalso; apply X, in_or_app; right; left; reflexivity].
      * rewrite nth_error_upd_other by congruence; rewrite (Ow a Ha); do 2 f_equal.
        destruct (in_dec _ a (released w)) as [Y|Y], (in_dec _ a (released w ++ [d])) as [Z|Z]; try reflexivity; exfalso; [apply Z, in_or_app; left; exact Y|].
        apply in_app_or in Z as [Z|[Z|[]]]; [contradiction|congruence].
    + unfold w1; cbn [released]; rewrite <- app_assoc; exact Nd.
    + unfold w1; cbn [objects]; rewrite upd_nat_length; exact Hk.
    + exists w'; split; [exact E|]; split; [exact M|]; split; [rewrite R; unfold w1; cbn [released]; rewrite <- app_assoc; reflexivity|]; split; [rewrite L; unfold w1; cbn [objects]; apply upd_nat_length|exact O].
Qed.

Lemma history es : forall w g, owned w g -> Forall plain es -> valid (length (objects w)) (map living (managers w)) es -> NoDup (g ++ given es) ->
  exists w', lrun es w = Ok w' /\ owned w' (g ++ given es).
Proof.
  induction es as [|e es IH]; intros w g Ow Hp Hv Nd.
  - exists w; rewrite app_nil_r; split; [reflexivity|exact Ow].
  - apply Forall_cons_iff in Hp as [Pe Hp]; unfold lrun in *; cbn [foldO given flat_map] in *; fold (given es) in *; destruct Ow as [Oh Oo Ok_].
    destruct e as [c|ds|m d|m|m|m|m]; cbn [lstep given_by plain] in *; try contradiction.
    + destruct c; [|contradiction]; cbn [obind]; cbn [app] in *.
      destruct (IH (mkWorld (objects w ++ [mkObject Base true]) (managers w) (released w)) g) as (w' & E & O'); try assumption.
      * split; cbn [objects managers released]; [exact Oh| |intros a Ha; rewrite app_length; cbn; specialize (Ok_ a Ha); lia].
        intros a Ha; rewrite app_length in Ha; cbn in Ha; destruct (Nat.lt_ge_cases a (length (objects w))) as [Hlt|Hge].
        -- rewrite nth_error_app1 by exact Hlt; apply Oo; exact Hlt.
        -- rewrite nth_error_app2 by exact Hge; replace (a - length (objects w))%nat with 0%nat by lia; cbn [nth_error]; do 2 f_equal.
           destruct (in_dec _ a (released w)) as [Hin|]; [|reflexivity]; exfalso.
           assert (In a g) by (eapply Permutation_in; [exact Oh|apply in_or_app; left; exact Hin]); specialize (Ok_ a H); lia.
      * cbn [objects managers]; rewrite app_length; cbn [length]; rewrite Nat.add_1_r; exact Hv.
      * exists w'; split; [exact E|exact O'].
    + cbn [obind]; destruct Hv as [Hd Hv]; rewrite app_assoc in *.
      destruct (IH (mkWorld (objects w) (managers w ++ [Some ds]) (released w)) (g ++ ds)) as (w' & E & O'); try assumption.
      * split; cbn [objects managers released]; [|exact Oo|].
        -- rewrite held_app; cbn [held flat_map]; rewrite app_nil_r, app_assoc; apply Permutation_app_tail; exact Oh.
        -- intros a Ha; apply in_app_or in Ha as [Ha|Ha]; [apply Ok_; exact Ha|rewrite Forall_forall in Hd; apply Hd; exact Ha].
      * cbn [objects managers]; rewrite map_app; exact Hv.
      * exists w'; split; [exact E|exact O'].
    + destruct Hv as (Hm & Hd & Hv); apply living_true in Hm as (ds & Hm); unfold get_manager; rewrite Hm; cbn [obind]; rewrite app_assoc in *.
      destruct (IH (set_manager w m (Some (ds ++ [d]))) (g ++ [d])) as (w' & E & O'); try assumption.
      * split; cbn [set_manager objects managers released]; [|exact Oo|].
        -- apply nth_error_split in Hm as (l1 & l2 & El & <-); rewrite El in *; rewrite upd_nat_mid.
           rewrite held_app in *; cbn [held flat_map] in *; fold (held l2) in *; rewrite <- !app_assoc in *.
           eapply Permutation_trans; [|apply Permutation_app_tail; exact Oh]; rewrite <- !app_assoc; do 3 apply Permutation_app_head; apply Permutation_app_comm.
        -- intros a Ha; apply in_app_or in Ha as [Ha|[<-|[]]]; [apply Ok_; exact Ha|exact Hd].
      * cbn [set_manager objects managers]; rewrite (map_living_upd _ _ _ _ Hm); cbn [living].
        replace (upd_nat (map living (managers w)) m true) with (map living (managers w)); [exact Hv|].
        apply nth_error_split in Hm as (l1 & l2 & -> & <-); rewrite map_app; cbn [map living]; rewrite <- (map_length living l1), upd_nat_mid; reflexivity.
      * exists w'; split; [exact E|exact O'].
    + destruct Hv as [Hm Hv]; apply living_true in Hm as (ds & Hm); unfold get_manager; rewrite Hm; cbn [obind app] in *.
      assert (Ht : foldO (fun _ d => touch w d) ds tt = Ok tt).
      { assert (Hal : forall a, In a ds -> touch w a = Ok tt).
        { intros a Ha; assert (Hh : In a (held (managers w))) by (apply in_flat_map; exists (Some ds); split; [eapply nth_error_In; exact Hm|exact Ha]).
          assert (Hg : In a g) by (eapply Permutation_in; [exact Oh|apply in_or_app; right; exact Hh]).
          unfold touch; rewrite (Oo a (Ok_ a Hg)); cbn [o_alive]; destruct (in_dec _ a (released w)) as [Hr|]; [|reflexivity]; exfalso.
          assert (Ng : NoDup (released w ++ held (managers w))).
          { eapply Permutation_NoDup; [apply Permutation_sym; exact Oh|]; clear - Nd; induction g as [|x g IH]; [constructor|]; cbn [app] in Nd; inversion Nd; subst; constructor; [intros X; apply H1, in_or_app; left; exact X|apply IH; assumption]. }
          clear - Hr Hh Ng; induction (released w) as [|x l IH]; [destruct Hr|]; cbn [app] in Ng; inversion Ng; subst; destruct Hr as [->|Hr]; [apply H1, in_or_app; right; exact Hh|apply IH; assumption]. }
        clear - Hal; induction ds as [|a ds IH]; [reflexivity|]; cbn [foldO]; rewrite (Hal a) by (left; reflexivity); cbn [obind]; apply IH; intros b Hb; apply Hal; right; exact Hb. }
      rewrite Ht; cbn [obind]; apply IH; try assumption; split; assumption.
    + destruct Hv as [Hm Hv]; apply living_true in Hm as (ds & Hm); unfold get_manager; rewrite Hm; cbn [obind app] in *.
      pose proof Hm as Hs; apply nth_error_split in Hs as (l1 & l2 & El & Ll).
      assert (Ph : Permutation (released w ++ ds ++ held (l1 ++ l2)) g).
      { eapply Permutation_trans; [|exact Oh]; rewrite El, !held_app; cbn [held flat_map]; fold (held l2); apply Permutation_app_head; rewrite !app_assoc; apply Permutation_app_tail, Permutation_app_comm. }
      assert (Ng : NoDup (released w ++ ds)).
      { assert (N1 : NoDup (released w ++ ds ++ held (l1 ++ l2))).
        { eapply Permutation_NoDup; [apply Permutation_sym; exact Ph|]; clear - Nd; induction g as [|x g IH]; [constructor|]; cbn [app] in Nd; inversion Nd; subst; constructor; [intros X; apply H1, in_or_app; left; exact X|apply IH; assumption]. }
        rewrite app_assoc in N1; clear - N1; induction (released w ++ ds) as [|x l IH]; [constructor|]; cbn [app] in N1; inversion N1; subst; constructor; [intros X; apply H1, in_or_app; left; exact X|apply IH; assumption]. }
      destruct (releases ds w Oo Ng) as (w1 & E1 & M1 & R1 & L1 & O1).
      { apply Forall_forall; intros a Ha; apply Ok_; eapply Permutation_in; [exact Ph|]; apply in_or_app; right; apply in_or_app; left; exact Ha. }
      rewrite E1; cbn [obind].
      destruct (IH (set_manager w1 m None) g) as (w' & E & O'); try assumption.
      * split; cbn [set_manager objects managers released].
        -- rewrite R1, M1, El, <- Ll, upd_nat_mid, <- app_assoc, held_app; cbn [held flat_map app]; fold (held l2); rewrite <- held_app; exact Ph.
        -- exact O1.
        -- intros a Ha; rewrite L1; apply Ok_; exact Ha.
      * cbn [set_manager objects managers]; rewrite L1, M1, (map_living_upd _ _ _ _ Hm); exact Hv.
      * exists w'; split; [exact E|exact O'].
Qed.
Lemma held_none ms : Forall (fun m => m = None) ms -> held ms = [].
Proof. induction 1 as [|m ms -> _ IH]; [reflexivity|]; cbn [held flat_map app]; exact IH. Qed.

(** the statement of C103 for histories without derived classes, clear() and copies *)
Theorem C103_partial es : valid 0 [] es -> NoDup (given es) -> Forall plain es ->
  exists w, lrun es world0 = Ok w /\ (Forall (fun m => m = None) (managers w) -> Permutation (released w) (given es)).
Proof.
  intros Hv Nd Hp; destruct (history es world0 []) as (w & E & O); try assumption.
  - split; cbn; [constructor|intros a Ha; lia|intros a []].
  - exists w; split; [exact E|]; intros Hn; pose proof (ow_held _ _ O) as Ph; rewrite (held_none _ Hn), app_nil_r in Ph; exact Ph.
Qed.
(** handing the same decomposer over twice: the end of the Manager is undefined *)
Theorem C103_twice_undefined w m d : nth_error (managers w) m = Some (Some []) -> lrun [EAdd m d; EAdd m d; EDestroy m] w = UB.
Proof.
  intros Hm; unfold lrun; cbn [foldO lstep]; unfold get_manager at 1; rewrite Hm; cbn [obind app].
  assert (Lt : (m < length (managers w))%nat) by (apply nth_error_Some; congruence).
  unfold get_manager at 1; cbn [set_manager managers]; rewrite nth_error_upd_same by exact Lt; cbn [obind app].
  unfold get_manager at 1; cbn [set_manager managers]; rewrite nth_error_upd_same by (rewrite upd_nat_length; exact Lt); cbn [obind foldO].
  unfold release at 1; cbn [set_manager objects managers released].
  destruct (nth_error (objects w) d) as [[[] []]|] eqn:E; try reflexivity; cbn [obind].
  unfold release; cbn [objects]; rewrite nth_error_upd_same by (apply nth_error_Some; congruence); reflexivity.
Qed.
Print Assumptions C103_refuted.
Print Assumptions C103_derived_undefined.
Print Assumptions C103_copy_undefined.
Print Assumptions C103_clear_leaks.
Print Assumptions C103_twice_undefined.
(** nothing may be asked of a Manager after its end *)
Theorem C103_after_end w m w' d : lstep w (EDestroy m) = Ok w' ->
  lstep w' (EAdd m d) = UB /\ lstep w' (EClear m) = UB /\ lstep w' (ENames m) = UB /\ lstep w' (ECopy m) = UB /\ lstep w' (EDestroy m) = UB.
Proof.
  intros H; assert (G : get_manager w' m = UB).
  { cbn [lstep] in H; unfold get_manager in H; destruct (nth_error (managers w) m) as [[ds|]|] eqn:Em; try discriminate H; cbn [obind] in H.
    destruct (foldO release ds w) as [w1| |] eqn:Er; try discriminate H; cbn [obind] in H; injection H as <-.
    unfold get_manager, set_manager; cbn [managers]; rewrite (foldO_release_managers ds w w1 Er), nth_error_upd_same by (apply nth_error_Some; congruence); reflexivity. }
  cbn [lstep]; rewrite G; repeat split; reflexivity.
Qed.
Print Assumptions C103_after_end.
Example C103_after_end_ex : exists w', lrun [ENew Base; EManager [0%nat]] world0 = Ok w' /\ exists w'', lstep w' (EDestroy 0) = Ok w'' /\ lstep w'' (ENames 0) = UB.
Proof. eexists; split; [reflexivity|]; eexists; split; reflexivity. Qed.

(** a decomposer that is not there, because it is gone or because the pointer never led to one: asking the Manager is undefined *)
Definition not_there (w : world) (d : nat) : Prop := forall c, nth_error (objects w) d <> Some (mkObject c true).
Theorem C103_dangling_undefined w m ds d : nth_error (managers w) m = Some (Some ds) -> In d ds -> not_there w d ->
  lstep w (ENames m) = UB.
Proof.
  intros Hm Hd Hn; cbn [lstep]; unfold get_manager; rewrite Hm; cbn [obind].
  assert (T : touch w d = UB).
  { unfold touch; destruct (nth_error (objects w) d) as [[c []]|] eqn:E; try reflexivity; exfalso; exact (Hn c E). }
  assert (U : foldO (fun _ d => touch w d) ds tt = UB).
  { clear Hm; induction ds as [|a ds IH]; [contradiction|]; cbn [foldO]; destruct Hd as [->|Hd]; [rewrite T; reflexivity|].
    unfold touch at 1; destruct (nth_error (objects w) a) as [[c []]|]; cbn [o_alive obind]; [exact (IH Hd)|reflexivity|reflexivity]. }
  rewrite U; reflexivity.
Qed.
Print Assumptions C103_dangling_undefined.
Example C103_dangling_ex : exists w, lrun [ENew Base; EManager [0%nat; 1%nat]] world0 = Ok w /\ not_there w 1 /\ lstep w (ENames 0) = UB.
Proof. eexists; split; [reflexivity|]; split; [intros c H; discriminate H|reflexivity]. Qed.

Print Assumptions C103_partial.

Example C103_example : let es := [ENew Base; ENew Base; ENew Base; EManager [2%nat]; EAdd 0 0; ENames 0; EManager [1%nat]; EDestroy 0; EDestroy 1] in
  valid 0 [] es /\ NoDup (given es) /\ Forall plain es /\ exists w, lrun es world0 = Ok w /\ released w = [2; 0; 1]%nat.
Proof.
  cbn; split; [repeat split; repeat constructor|]; split; [repeat constructor; cbn; intuition discriminate|]; split; [repeat constructor|]; eexists; split; reflexivity.
Qed.

(** ** C104: the callback of a UserDefinedDecomposer *)
Section UserDefinedProps.
  Context {T : Type} {NT : Num T} {St : Type}.
  (** what a UserDefinedDecomposer is for: answering the request (k, name) with the result of the function it was given *)
  Definition answers (dec : decomposer T St) (k : Z) (name : string) (f : callback) : Prop := forall d k' name' st,
    d_serie dec d k' name' st = (if (k' =? k) && String.eqb name' name then f d st else (Ok serie_default, st)).
  Definition C104_statement : Prop := forall (h : closures (T := T) (St := St)) k name f, let '(h', u) := new_from_temporary h k name f in answers (user_decomposer h' u) k name f.

  Lemma dead_cb h k name f : let '(h', u) := new_from_temporary h k name f in forall d, call_cb h' (u_cb u) d = lift (St := St) (A := Serie T) UB.
  Proof.
    unfold new_from_temporary; intros d; unfold call_cb; cbn [u_cb]; rewrite nth_error_upd_same by (rewrite app_length; cbn; lia); reflexivity.
  Qed.
  (** a temporary: every request that it should answer is undefined; so are the names of that item size *)
  Theorem C104_temporary_undefined (h : closures (T := T) (St := St)) k name (f : callback) ref n (st : St) d : let '(h', u) := new_from_temporary h k name f in
    d_serie (user_decomposer h' u) d k name st = (UB, st) /\ d_names (user_decomposer h' u) d k ref n st = (UB, st).
  Proof.
    pose proof (dead_cb h k name f) as D; unfold new_from_temporary in *; cbn [u_cb] in D; unfold user_decomposer, UserDefined; cbn [d_serie d_names u_itemSize u_name u_cb].
    rewrite Z.eqb_refl, String.eqb_refl; cbn [negb orb]; rewrite D; split; reflexivity.
  Qed.
  (** other requests never reach the callback *)
  Theorem C104_other_requests (h : closures (T := T) (St := St)) (u : user_defined) (d : Dataframe T) k name (st : St) : k <> u_itemSize u \/ name <> u_name u ->
    d_serie (user_decomposer h u) d k name st = (Ok serie_default, st).
  Proof.
    intros Ho; unfold user_decomposer, UserDefined; cbn [d_serie].
    destruct (Z.eqb_spec k (u_itemSize u)) as [Ek|]; cbn [negb orb]; [|reflexivity]; destruct (String.eqb_spec (u_name u) name) as [En|]; [|reflexivity].
    destruct Ho; congruence.
  Qed.
  (** a function object that is still alive *)
  Theorem C104_partial (h : closures (T := T) (St := St)) k name (f : callback) later : let '(h', u) := new_from_variable h k name f in answers (user_decomposer (h' ++ later) u) k name f.
  Proof.
    unfold new_from_variable, answers; intros d k' name' st; unfold user_decomposer, UserDefined; cbn [d_serie u_itemSize u_name u_cb].
    rewrite (String.eqb_sym name name'); destruct (k' =? k), (String.eqb name' name); cbn [negb orb andb]; try reflexivity.
    unfold call_cb; rewrite <- app_assoc, nth_error_app2, Nat.sub_diag by lia; reflexivity.
  Qed.
End UserDefinedProps.
#[local] Instance F64N : Num F64 := f64_num libm0.
Theorem C104_refuted : ~ C104_statement (T := F64) (NT := F64N) (St := unit).
Proof.
  intros Hs; pose proof (Hs [] 1 "xx" (fun _ => ret (mk 1 (col [#2; #1; #9]) 3))) as A; pose proof (C104_temporary_undefined (T := F64) [] 1 "xx" (fun _ => ret (mk 1 (col [#2; #1; #9]) 3)) (0, serie_default) "S" tt (df_new 0)) as B.
  unfold new_from_temporary in *; cbn [length app upd_nat] in *; destruct B as [B _]; rewrite (A (df_new 0) 1 "xx" tt) in B; cbn in B; discriminate B.
Qed.
Print Assumptions C104_refuted.
Print Assumptions C104_temporary_undefined.
Print Assumptions C104_other_requests.
Print Assumptions C104_partial.
Example C104_example : let '(h, u) := new_from_variable (T := F64) (St := unit) [] 1 "xx" (fun _ => ret (mk 1 (col [#2; #1; #9]) 3)) in
  run (d_serie (user_decomposer h u) (df_new 0) 1 "xx") = Ok (mk 1 (col [#2; #1; #9]) 3) /\ run (d_serie (user_decomposer h u) (df_new 0) 3 "xx") = Ok serie_default.
Proof. split; reflexivity. Qed.
