(** * C165: the order of the calls of a Dataframe. *)
From Verif Require Import Base Num Serie Spec BaseFacts SerieFacts F64 Props_Functional Dataframe Props_Dataframe.
From Coq Require Import Sorting.Sorted Sorting.Permutation.
From Coq Require String.
Import String.StringSyntax.
Open Scope Z_scope.
Opaque f64_of_Z.
#[local] Existing Instance F64N.

Section Order.
  Context {T : Type} {NT : Num T}.
  Implicit Types d : Dataframe T.

  (** the name a call is about; none for [clear] and [setCount] *)
  Definition about (c : dcall T) : option string :=
    match c with
    | DAdd _ n _ | DSet _ n _ | DCreate _ n _ _ | DDel n | DRef _ n | DModify _ n _ => Some n
    | DClear | DSetCount _ => None
    end.
  (** the count a call gives to a Dataframe without one *)
  Definition brings (c : dcall T) : Z :=
    match c with
    | DAdd _ _ s | DSet _ _ s => count_ s
    | DCreate _ _ _ c => c
    | _ => 0
    end.
  Definition apart (c1 c2 : dcall T) : Prop :=
    match about c1, about c2 with Some n, Some m => n <> m | _, _ => False end.

  (** ** maps with equal look-ups are equal *)
  Lemma ordered_ext (m : list (entry T)) : forall m', ordered m -> ordered m' -> (forall x, map_find x m = map_find x m') -> m = m'.
  Proof.
    induction m as [|[k c] m IH]; intros [|[k' c'] m'] Ho Ho' Hf; [reflexivity| | |].
    - specialize (Hf k'); simpl in Hf; rewrite String.eqb_refl in Hf; clear - Hf; discriminate Hf.
    - specialize (Hf k); simpl in Hf; rewrite String.eqb_refl in Hf; clear - Hf; discriminate Hf.
    - inversion Ho as [|? ? O1 L1]; inversion Ho' as [|? ? O2 L2]; subst.
      assert (Hk : k = k').
      { destruct (String.compare k k') eqn:E; [apply String.compare_eq_iff, E| |]; exfalso.
        - pose proof (Hf k) as F; simpl in F; rewrite String.eqb_refl in F.
          destruct (String.eqb_spec k' k) as [->|]; [exact (name_lt_irrefl _ E)|].
          symmetry in F; apply find_in in F; apply (in_map fst) in F; exact (not_later m' k' k L2 E F).
        - apply name_gt in E; pose proof (Hf k') as F; simpl in F; rewrite String.eqb_refl in F.
          destruct (String.eqb_spec k k') as [->|]; [exact (name_lt_irrefl _ E)|].
          apply find_in in F; apply (in_map fst) in F; exact (not_later m k k' L1 E F). }
      subst k'; pose proof (Hf k) as F; simpl in F; rewrite String.eqb_refl in F; injection F as ->; f_equal.
      apply IH; [exact O1|exact O2|]; intros x; pose proof (Hf x) as Fx; simpl in Fx.
      destruct (String.eqb_spec k x) as [E|]; [subst x|exact Fx].
      transitivity (@None (Z * Serie T)); [|symmetry]; apply find_none.
      + intros Hin; rewrite Forall_forall in L1; exact (name_lt_irrefl k (L1 k Hin)).
      + intros Hin; rewrite Forall_forall in L2; exact (name_lt_irrefl k (L2 k Hin)).
  Qed.

  (** ** a call about one name acts on the node of that name *)
  Definition acts (c : dcall T) (o : option (Z * Serie T)) : option (Z * Serie T) :=
    let at_ a := match o with Some e => e | None => (a, serie_default) end in
    match c with
    | DAdd a _ s | DSet a _ s => Some (fst (at_ a), serie_assign (snd (at_ a)) s)
    | DCreate a _ k c => Some (fst (at_ a), serie_assign (snd (at_ a)) (serie_n (s32 k) c 3))
    | DDel _ => None
    | DRef a _ => Some (at_ a)
    | DModify a _ f => Some (fst (at_ a), f (snd (at_ a)))
    | _ => o
    end.
  Lemma step_find d c n x : about c = Some n -> ordered (df_series d) ->
    map_find x (df_series (dstep d c)) = if String.eqb n x then acts c (map_find n (df_series d)) else map_find x (df_series d).
  Proof.
    intros E Ho; destruct c; simpl in E; try (clear - E; discriminate E); injection E as <-;
      unfold dstep, df_set, df_create, df_add, df_ref, df_modify; simpl; rewrite ?modify_find; rewrite ?at_find by exact Ho.
    1-3: destruct (String.eqb_spec name x) as [<-|]; destruct (map_find _ (df_series d)) as [[]|]; reflexivity.
    - unfold df_del; destruct (map_find name (df_series d)) as [e|] eqn:En; simpl; [apply erase_find, Ho|].
      destruct (String.eqb_spec name x) as [<-|]; [exact En|reflexivity].
    - destruct (String.eqb_spec name x) as [<-|]; destruct (map_find _ (df_series d)) as [[]|]; reflexivity.
    - destruct (String.eqb_spec name x) as [<-|]; destruct (map_find _ (df_series d)) as [[]|]; reflexivity.
  Qed.
  Lemma step_count d c n : about c = Some n -> df_count (dstep d c) = if df_count d =? 0 then brings c else df_count d.
  Proof.
    intros E; destruct c; simpl in E; try (clear - E; discriminate E); simpl; try reflexivity.
    - unfold df_del; destruct (map_find _ _); simpl; destruct (Z.eqb_spec (df_count d) 0); congruence.
    - destruct (Z.eqb_spec (df_count d) 0); congruence.
    - destruct (Z.eqb_spec (df_count d) 0); congruence.
  Qed.
  Lemma dataframe_eq d d' : df_count d = df_count d' -> df_series d = df_series d' -> d = d'.
  Proof. destruct d, d'; simpl; congruence. Qed.
  Lemma reached cs c0 : ordered (df_series (drun cs (df_new c0) : Dataframe T)).
  Proof. apply run_ordered; constructor. Qed.

  Lemma exchange_series d c1 c2 : apart c1 c2 -> ordered (df_series d) -> df_series (dstep (dstep d c1) c2) = df_series (dstep (dstep d c2) c1).
  Proof.
    unfold apart; destruct (about c1) as [n|] eqn:E1; [|tauto]; destruct (about c2) as [m|] eqn:E2; [|tauto]; intros Hn Ho.
    assert (O1 := step_ordered d c1 Ho); assert (O2 := step_ordered d c2 Ho).
    apply ordered_ext; [apply step_ordered, O1|apply step_ordered, O2|]; intros x.
    rewrite (step_find _ _ _ _ E2 O1), (step_find _ _ _ _ E1 O2), !(step_find _ _ _ _ E1 Ho), !(step_find _ _ _ _ E2 Ho).
    repeat match goal with |- context[String.eqb ?p ?q] => destruct (String.eqb_spec p q) end; congruence.
  Qed.
  Lemma exchange_count d c1 c2 : apart c1 c2 ->
    (df_count (dstep (dstep d c1) c2) = df_count (dstep (dstep d c2) c1) <-> df_count d <> 0 \/ brings c1 = 0 \/ brings c2 = 0 \/ brings c1 = brings c2).
  Proof.
    unfold apart; destruct (about c1) as [n|] eqn:E1; [|tauto]; destruct (about c2) as [m|] eqn:E2; [|tauto]; intros _.
    rewrite (step_count _ _ _ E2), (step_count _ _ _ E1), (step_count _ _ _ E1), (step_count _ _ _ E2).
    destruct (Z.eqb_spec (df_count d) 0) as [->|]; [|destruct (Z.eqb_spec (df_count d) 0); tauto].
    destruct (Z.eqb_spec (brings c1) 0), (Z.eqb_spec (brings c2) 0); intuition congruence.
  Qed.
  Lemma permute (cs cs' : list (dcall T)) : Permutation cs cs' -> ForallOrdPairs apart cs -> Forall (fun c => about c <> None) cs -> forall d, ordered (df_series d) -> df_count d <> 0 ->
    drun cs d = drun cs' d.
  Proof.
    assert (Sy : forall c1 c2, apart c1 c2 -> apart c2 c1) by (unfold apart; intros c1 c2; destruct (about c1), (about c2); auto).
    assert (Pe : forall l l', Permutation l l' -> ForallOrdPairs apart l -> ForallOrdPairs apart l').
    { induction 1 as [|x l l' P IH|x y l|l l' l'' P1 IH1 P2 IH2]; intros H; [exact H| | |auto].
      - inversion H; subst; constructor; [|auto]. rewrite Forall_forall in *; intros z Hz; apply H2; rewrite P; exact Hz.
      - inversion H as [|? ? A B]; subst; inversion B as [|? ? A' B']; inversion A as [|? ? A1 A2]; subst; constructor; [constructor; [apply Sy|]|constructor]; assumption. }
    assert (Nz : forall d c, about c <> None -> df_count d <> 0 -> df_count (dstep d c) <> 0).
    { intros d c Ha Hd; destruct (about c) eqn:E; [|congruence]; rewrite (step_count _ _ _ E); destruct (Z.eqb_spec (df_count d) 0); congruence. }
    induction 1 as [|x l l' P IH|x y l|l l' l'' P1 IH1 P2 IH2]; intros Hp Ha d Ho Hd; [reflexivity| | |].
    - inversion Hp; inversion Ha; subst; unfold drun; simpl; apply IH; auto using step_ordered.
    - inversion Hp as [|? ? A _]; inversion A; subst; unfold drun; simpl; f_equal.
      apply dataframe_eq; [apply exchange_count; auto|apply exchange_series; auto].
    - rewrite IH1 by assumption; apply IH2; eauto. rewrite Forall_forall in *; intros z Hz; apply Ha; rewrite P1; exact Hz.
  Qed.
End Order.

(** ** C165: calls about different names *)
Theorem C165_exchange : forall {T} {NT : Num T} c0 (cs : list (dcall T)) c1 c2, apart c1 c2 ->
  let d := drun cs (df_new c0) in
  df_series (drun [c1; c2] d) = df_series (drun [c2; c1] d) /\
  (drun [c1; c2] d = drun [c2; c1] d <-> df_count d <> 0 \/ brings c1 = 0 \/ brings c2 = 0 \/ brings c1 = brings c2).
Proof.
  intros T NT c0 cs c1 c2 Ha d; pose proof (exchange_series d c1 c2 Ha (reached cs c0)) as Es; split; [exact Es|].
  rewrite <- (exchange_count d c1 c2 Ha); split; [intros E; exact (f_equal df_count E)|intros E; apply dataframe_eq; [exact E|exact Es]].
Qed.
Print Assumptions C165_exchange.

Theorem C165_any_order : forall {T} {NT : Num T} c0 (cs new new' : list (dcall T)),
  ForallOrdPairs apart new -> Forall (fun c => about c <> None) new -> Permutation new new' ->
  let d := drun cs (df_new c0) in df_count d <> 0 -> drun new d = drun new' d.
Proof. intros T NT c0 cs new new' Hp Ha P d Hd; apply permute; [exact P|exact Hp|exact Ha|apply reached|exact Hd]. Qed.
Print Assumptions C165_any_order.

(** ** C165: calls about one name *)
Theorem C165_same_name : forall {T} {NT : Num T} c0 (cs : list (dcall T)) n a a' (s t : Serie T),
  let d := drun cs (df_new c0) in
  df_series (drun [DAdd a n s; DAdd a' n t] d) = df_series (drun [DAdd a n t] d) /\
  df_count (drun [DAdd a n s; DAdd a' n t] d) = (if df_count d =? 0 then if count_ s =? 0 then count_ t else count_ s else df_count d) /\
  df_series (drun [DAdd a n s; DDel n] d) = df_series (drun [DDel n] d) /\
  (df_contains_name d n = false -> df_series (drun [DAdd a n s; DDel n] d) = df_series d) /\
  df_series (drun [DDel n; DDel n] d) = df_series (drun [DDel n] d) /\
  (forall f g, drun [DModify a n f; DModify a' n g] d = drun [DModify a n (fun s => g (f s))] d) /\
  drun [DRef a n; DRef a' n] d = drun [DRef a n] d.
Proof.
  intros T NT c0 cs n a a' s t d; assert (Ho : ordered (df_series d)) by apply reached.
  assert (One : forall c x, about c = Some n -> map_find x (df_series (dstep d c)) = if String.eqb n x then acts c (map_find n (df_series d)) else map_find x (df_series d))
    by (intros; apply step_find; assumption).
  assert (Two : forall c c' x, about c = Some n -> about c' = Some n ->
            map_find x (df_series (dstep (dstep d c) c')) = if String.eqb n x then acts c' (acts c (map_find n (df_series d))) else map_find x (df_series d)).
  { intros c c' x E E'; rewrite (step_find _ c' n x E' (step_ordered d c Ho)), !One, String.eqb_refl by exact E; destruct (String.eqb n x); reflexivity. }
  assert (Eq : forall c c' c'', about c = Some n -> about c' = Some n -> about c'' = Some n -> (forall o, acts c' (acts c o) = acts c'' o) ->
            df_series (dstep (dstep d c) c') = df_series (dstep d c'')).
  { intros c c' c'' E E' E'' H; apply ordered_ext; [apply step_ordered, step_ordered, Ho|apply step_ordered, Ho|]; intros x.
    rewrite Two, One by assumption; rewrite H; reflexivity. }
  unfold drun; cbn [fold_left]; repeat split.
  - apply Eq; try reflexivity; intros [[]|]; reflexivity.
  - simpl; destruct (Z.eqb_spec (df_count d) 0) as [|Hz]; [reflexivity|destruct (Z.eqb_spec (df_count d) 0); congruence].
  - apply Eq; reflexivity.
  - intros Hn; rewrite (Eq _ (DDel n) (DDel n)) by reflexivity; simpl; unfold df_del; unfold df_contains_name in Hn.
    destruct (map_find n (df_series d)); [clear - Hn; discriminate Hn|reflexivity].
  - apply Eq; reflexivity.
  - intros f g; apply dataframe_eq; [reflexivity|apply Eq; try reflexivity; intros [[]|]; reflexivity].
  - apply dataframe_eq; [reflexivity|apply Eq; try reflexivity; intros [[]|]; reflexivity].
Qed.
Print Assumptions C165_same_name.

(** ** C165: calls about all names *)
Theorem C165_setCount : forall {T} {NT : Num T} c0 (cs : list (dcall T)) c n a (s : Serie T),
  let d := drun cs (df_new c0) in
  drun [DSetCount c; DDel n] d = drun [DDel n; DSetCount c] d /\
  drun [DSetCount c; DClear] d = drun [DClear; DSetCount c] d /\
  (forall c', 0 < c -> 0 < c' -> df_count d <> c -> df_count d <> c' -> drun [DSetCount c; DSetCount c'] d = drun [DSetCount c'] d) /\
  (** setting the count to another value and back clears all data *)
  (0 < c -> 0 < df_count d -> df_count d <> c -> let back := drun [DSetCount c; DSetCount (df_count d)] d in
     df_count back = df_count d /\ names (df_series back) = names (df_series d) /\
     forall x, df_contains_name d x = true -> df_get back x = reCount (df_get d x) (df_count d)) /\
  (** a Serie added before the count is set is cleared, one added afterwards is stored as it is *)
  (0 < c -> df_count d <> 0 -> df_count d <> c ->
     let before := df_get (drun [DAdd a n s; DSetCount c] d) n in let after := df_get (drun [DSetCount c; DAdd a n s] d) n in
     (count_ before = c /\ itemSize_ before = itemSize_ s /\ Forall (eq n0) (s_ before)) /\
     (count_ after = count_ s /\ itemSize_ after = itemSize_ s /\ s_ after = s_ s)) /\
  (** the first Serie added decides what setting the count does *)
  (df_count d = 0 -> count_ s <> 0 -> drun [DAdd a n s; DSetCount (count_ s)] d = drun [DAdd a n s] d).
Proof.
  intros T NT c0 cs c n a s d; assert (Ho : ordered (df_series d)) by apply reached.
  assert (Fd : forall d' x, df_count d' <> c -> 0 < c -> map_find x (df_series (df_setCount d' c)) = option_map (fun e => (fst e, reCount (snd e) c)) (map_find x (df_series d'))).
  { intros d' x Hne Hc; unfold df_setCount; destruct (Z.eqb_spec (df_count d') c); [contradiction|]; replace (0 <? c) with true by (symmetry; apply Z.ltb_lt, Hc); simpl.
    apply (recount_find (df_series d') (fun s => reCount s c)). }
  unfold drun; cbn [fold_left dstep]; repeat apply conj.
  - destruct ((df_count d =? c) || negb (0 <? c)) eqn:E.
    + assert (N : forall d', df_count d' = df_count d -> df_setCount d' c = d').
      { intros d' Ed; unfold df_setCount; rewrite Ed; destruct (df_count d =? c), (0 <? c); simpl in *; try reflexivity; clear - E; discriminate E. }
      rewrite !N; try reflexivity. unfold df_del; destruct (map_find n (df_series d)); reflexivity.
    + apply Bool.orb_false_iff in E; destruct E as [E1 E2]; apply Z.eqb_neq in E1; apply Bool.negb_false_iff, Z.ltb_lt in E2.
      assert (Cd : df_count (df_del d n) = df_count d) by (unfold df_del; destruct (map_find n (df_series d)); reflexivity).
      assert (Cs : forall d', df_count d' <> c -> df_count (df_setCount d' c) = c).
      { intros d' Hd; unfold df_setCount; destruct (Z.eqb_spec (df_count d') c); [contradiction|]; replace (0 <? c) with true by (symmetry; apply Z.ltb_lt, E2); reflexivity. }
      apply dataframe_eq.
      * unfold df_del at 1; rewrite (Cs (df_del d n)) by congruence; destruct (map_find n _); simpl; apply Cs, E1.
      * pose proof (step_ordered d (DSetCount c) Ho) as O1; pose proof (step_ordered d (DDel n) Ho) as O2.
        apply ordered_ext; [exact (step_ordered _ (DDel n) O1)|exact (step_ordered _ (DSetCount c) O2)|]; intros x.
        rewrite Fd by (rewrite ?Cd; assumption). change (df_del d n) with (dstep d (DDel n)); rewrite (step_find d (DDel n) n x eq_refl Ho).
        change (df_del (df_setCount d c) n) with (dstep (df_setCount d c) (DDel n)); rewrite (step_find _ (DDel n) n x eq_refl O1).
        change (dstep d (DSetCount c)) with (df_setCount d c); destruct (String.eqb n x); [reflexivity|apply Fd; assumption].
  - unfold df_setCount, df_clear; simpl; destruct (negb (df_count d =? c) && (0 <? c)); reflexivity.
  - intros c' Hc Hc' H1 H2; unfold df_setCount at 2 3; destruct (Z.eqb_spec (df_count d) c); [contradiction|]; destruct (Z.eqb_spec (df_count d) c'); [contradiction|].
    replace (0 <? c) with true by (symmetry; apply Z.ltb_lt, Hc); replace (0 <? c') with true by (symmetry; apply Z.ltb_lt, Hc'); simpl.
    unfold df_setCount; simpl; replace (0 <? c') with true by (symmetry; apply Z.ltb_lt, Hc'); destruct (Z.eqb_spec c c') as [<-|]; simpl; [reflexivity|].
    f_equal; rewrite map_map; apply map_ext; intros e; reflexivity.
  - intros Hc Hd Hne; cbv zeta; unfold df_setCount; destruct (Z.eqb_spec (df_count d) c); [contradiction|].
    replace (0 <? c) with true by (symmetry; apply Z.ltb_lt, Hc); simpl; destruct (Z.eqb_spec c (df_count d)); [congruence|].
    replace (0 <? df_count d) with true by (symmetry; apply Z.ltb_lt, Hd); simpl; split; [reflexivity|]; rewrite map_map; simpl; split.
    + apply (recount_names (df_series d) (fun s => reCount s (df_count d))).
    + intros x Hx; unfold df_get, df_contains_name in *; simpl.
      rewrite (recount_find (df_series d) (fun s => reCount (reCount s c) (df_count d))); destruct (map_find x (df_series d)); [reflexivity|clear - Hx; discriminate Hx].
  - intros Hc Hd Hne; cbv zeta; split.
    + assert (E : df_count (df_add a d n s) <> c) by (simpl; destruct (Z.eqb_spec (df_count d) 0); congruence).
      unfold df_get; rewrite (Fd _ _ E Hc). change (df_add a d n s) with (dstep d (DAdd a n s)); rewrite (step_find d (DAdd a n s) n n eq_refl Ho), String.eqb_refl; simpl.
      repeat split; apply Forall_forall; intros z Hz; unfold replicate in Hz; apply repeat_spec in Hz; congruence.
    + unfold df_get; change (df_add a (df_setCount d c) n s) with (dstep (dstep d (DSetCount c)) (DAdd a n s)).
      rewrite (step_find _ (DAdd a n s) n n eq_refl (step_ordered d (DSetCount c) Ho)), String.eqb_refl; simpl; auto.
  - intros Hd Hs; unfold df_setCount; simpl; rewrite Hd; simpl; unfold count; rewrite Z.eqb_refl; reflexivity.
Qed.
Print Assumptions C165_setCount.

(** Non-vacuity: two Series of counts 2 and 3.  With no count set, the order decides the count of the Dataframe; with a count it does not matter. *)
Definition ex_two : Serie F64 := mk 1 (col [#1; #2]) 3.
Definition ex_three : Serie F64 := mk 1 (col [#4; #5; #6]) 3.
Example C165_example :
  apart (DAdd 1 "a"%string ex_two) (DAdd 2 "b"%string ex_three) /\
  df_count (drun [DAdd 1 "a"%string ex_two; DAdd 2 "b"%string ex_three] (df_new 0)) = 2 /\
  df_count (drun [DAdd 2 "b"%string ex_three; DAdd 1 "a"%string ex_two] (df_new 0)) = 3 /\
  drun [DAdd 1 "a"%string ex_two; DAdd 2 "b"%string ex_three] (df_new 7) = drun [DAdd 2 "b"%string ex_three; DAdd 1 "a"%string ex_two] (df_new 7) /\
  names (df_series (drun [DAdd 2 "b"%string ex_three; DAdd 1 "a"%string ex_two] (df_new 7))) = ["a"; "b"]%string /\
  count_ (df_get (drun [DAdd 1 "a"%string ex_two; DSetCount 5] (df_new 7)) "a"%string) = 5 /\
  count_ (df_get (drun [DSetCount 5; DAdd 1 "a"%string ex_two] (df_new 7)) "a"%string) = 2.
Proof. repeat split; try reflexivity; discriminate. Qed.
