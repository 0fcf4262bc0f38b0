(** * C48-C53: the class Dataframe. *)
From Verif Require Import Base Num Serie Spec BaseFacts SerieFacts F64 Props_Functional Dataframe.
From Coq Require Import Sorting.Sorted.
From Coq Require String Ascii.
Import String.StringSyntax.
Open Scope Z_scope.

Ltac Zify.zify_post_hook ::= Z.div_mod_to_equations.
Opaque f64_of_Z.
#[local] Existing Instance F64N.

(** ** the order of names *)
Definition name_lt (a b : string) : Prop := String.compare a b = Lt.

Lemma ascii_lt_trans a b c : Ascii.compare a b = Lt -> Ascii.compare b c = Lt -> Ascii.compare a c = Lt.
Proof. unfold Ascii.compare; rewrite !N.compare_lt_iff; lia. Qed.
Lemma ascii_refl a : Ascii.compare a a = Eq.
Proof. unfold Ascii.compare; apply N.compare_refl. Qed.
Lemma name_refl a : String.compare a a = Eq.
Proof. induction a as [|c a IH]; simpl; [reflexivity|rewrite ascii_refl; exact IH]. Qed.
Lemma name_lt_irrefl a : ~ name_lt a a.
Proof. unfold name_lt; rewrite name_refl; discriminate. Qed.
Lemma name_lt_trans a : forall b c, name_lt a b -> name_lt b c -> name_lt a c.
Proof.
  unfold name_lt; induction a as [|x a IH]; intros [|y b] [|z c]; simpl; try congruence; try discriminate.
  destruct (Ascii.compare x y) eqn:E1; try discriminate.
  - apply Ascii.compare_eq_iff in E1; subst y.
    destruct (Ascii.compare x z) eqn:E2; try discriminate; try congruence.
    intros H1 H2; eapply IH; eassumption.
  - intros _; destruct (Ascii.compare y z) eqn:E2; try discriminate.
    + apply Ascii.compare_eq_iff in E2; subst z; rewrite E1; reflexivity.
    + rewrite (ascii_lt_trans x y z E1 E2); reflexivity.
Qed.
Lemma name_gt a b : String.compare a b = Gt -> name_lt b a.
Proof. unfold name_lt; intros H; rewrite String.compare_antisym, H; reflexivity. Qed.

Section Maps.
  Context {T : Type} {NT : Num T}.
  Notation entries := (list (entry T)).
  Implicit Types m : entries.

  Definition names (m : entries) : list string := map fst m.
  Definition ordered (m : entries) : Prop := StronglySorted name_lt (names m).
  Definition stored (m : entries) (n : string) : option (Serie T) := option_map snd (map_find n m).

  Lemma find_in m n c : map_find n m = Some c -> In (n, c) m.
  Proof.
    induction m as [|[k e] m IH]; simpl; [discriminate|].
    destruct (String.eqb_spec k n) as [->|]; [intros E; injection E as ->; left; reflexivity|intros E; right; auto].
  Qed.
  Lemma find_none m n : map_find n m = None <-> ~ In n (names m).
  Proof.
    induction m as [|[k e] m IH]; simpl; [tauto|].
    destruct (String.eqb_spec k n) as [->|Hne]; [split; [discriminate|intros H; exfalso; apply H; auto]|].
    rewrite IH; split; intros H; [intros [E|Hin]; [congruence|contradiction]|intros Hin; apply H; right; exact Hin].
  Qed.
  Lemma in_find m n c : ordered m -> In (n, c) m -> map_find n m = Some c.
  Proof.
    induction m as [|[k e] m IH]; intros Ho Hin; [destruct Hin|].
    inversion Ho as [|? ? Ho' Hlt]; subst; simpl; destruct (String.eqb_spec k n) as [->|Hne].
    - destruct Hin as [E|Hin]; [injection E as ->; reflexivity|].
      exfalso; rewrite Forall_forall in Hlt; apply (name_lt_irrefl n); apply Hlt.
      apply (in_map fst) in Hin; exact Hin.
    - destruct Hin as [E|Hin]; [congruence|apply IH; assumption].
  Qed.
  Lemma not_later (m : entries) k n : Forall (name_lt k) (names m) -> name_lt n k -> ~ In n (names m).
  Proof.
    intros Hf Hl Hin; rewrite Forall_forall in Hf; apply (name_lt_irrefl k); eapply name_lt_trans; [|exact Hl]; auto.
  Qed.

  Lemma at_names m a n x : In x (names (map_at a n m)) <-> x = n \/ In x (names m).
  Proof.
    induction m as [|[k e] m IH]; simpl; [intuition|].
    destruct (String.compare n k) eqn:E; simpl.
    - apply String.compare_eq_iff in E; subst; intuition.
    - intuition.
    - rewrite IH; intuition.
  Qed.
  Lemma at_ordered m a n : ordered m -> ordered (map_at a n m).
  Proof.
    unfold ordered; induction m as [|[k e] m IH]; intros Ho; simpl; [repeat constructor|].
    inversion Ho as [|? ? Ho' Hlt]; subst.
    destruct (String.compare n k) eqn:E; simpl; [exact Ho| |].
    - constructor; [exact Ho|]; constructor; [exact E|].
      eapply Forall_impl; [|exact Hlt]; intros x Hx; eapply name_lt_trans; [exact E|exact Hx].
    - constructor; [apply IH; exact Ho'|]; apply Forall_forall; intros x Hx; apply at_names in Hx.
      destruct Hx as [->|Hx]; [apply name_gt; exact E|rewrite Forall_forall in Hlt; auto].
  Qed.
  Lemma at_find m a n x : ordered m ->
    map_find x (map_at a n m) =
    match map_find x m with Some c => Some c | None => if String.eqb n x then Some (a, serie_default) else None end.
  Proof.
    induction m as [|[k e] m IH]; intros Ho; simpl; [reflexivity|].
    inversion Ho as [|? ? Ho' Hlt]; subst.
    destruct (String.compare n k) eqn:E; simpl.
    - apply String.compare_eq_iff in E; subst; destruct (String.eqb_spec k x); [reflexivity|].
      destruct (map_find x m); reflexivity.
    - destruct (String.eqb_spec n x) as [->|]; destruct (String.eqb_spec k x) as [->|]; try reflexivity.
      + exfalso; apply (name_lt_irrefl x); exact E.
      + replace (map_find x m) with (@None (Z * Serie T)); [reflexivity|].
        symmetry; apply find_none; eapply not_later; eassumption.
      + destruct (map_find x m); reflexivity.
    - destruct (String.eqb_spec k x); [reflexivity|apply IH; exact Ho'].
  Qed.

  Lemma modify_names m n f : names (map_modify n f m) = names m.
  Proof.
    induction m as [|[k [a s]] m IH]; simpl; [reflexivity|].
    destruct (String.eqb k n); simpl; [reflexivity|rewrite IH; reflexivity].
  Qed.
  Lemma modify_find m n f x :
    map_find x (map_modify n f m) =
    option_map (fun c => if String.eqb n x then (fst c, f (snd c)) else c) (map_find x m).
  Proof.
    induction m as [|[k [a s]] m IH]; simpl; [reflexivity|].
    destruct (String.eqb_spec k n) as [->|Hkn]; simpl.
    - destruct (String.eqb_spec n x) as [->|]; [reflexivity|].
      destruct (map_find x m); reflexivity.
    - destruct (String.eqb_spec k x) as [->|]; [|exact IH].
      destruct (String.eqb_spec n x) as [->|]; [congruence|reflexivity].
  Qed.
  Lemma erase_names_in m n x : In x (names (map_erase n m)) -> In x (names m).
  Proof. induction m as [|[k e] m IH]; simpl; [auto|]; destruct (String.eqb k n); simpl; intuition. Qed.
  Lemma erase_ordered m n : ordered m -> ordered (map_erase n m).
  Proof.
    unfold ordered; induction m as [|[k e] m IH]; intros Ho; simpl; [exact Ho|].
    inversion Ho as [|? ? Ho' Hlt]; subst; destruct (String.eqb k n); [exact Ho'|].
    simpl; constructor; [apply IH; exact Ho'|]; apply Forall_forall; intros x Hx.
    rewrite Forall_forall in Hlt; apply Hlt; eapply erase_names_in; exact Hx.
  Qed.
  Lemma erase_find m n x : ordered m -> map_find x (map_erase n m) = if String.eqb n x then None else map_find x m.
  Proof.
    induction m as [|[k e] m IH]; intros Ho; simpl; [destruct (String.eqb n x); reflexivity|].
    inversion Ho as [|? ? Ho' Hlt]; subst; destruct (String.eqb_spec k n) as [->|Hkn]; simpl.
    - destruct (String.eqb_spec n x) as [->|]; [|reflexivity].
      apply find_none; intros Hin; rewrite Forall_forall in Hlt; apply (name_lt_irrefl x); auto.
    - rewrite (IH Ho'); destruct (String.eqb_spec k x) as [->|]; [|reflexivity].
      destruct (String.eqb_spec n x) as [->|]; [congruence|reflexivity].
  Qed.
  Lemma recount_names (m : entries) (g : Serie T -> Serie T) : names (map (fun e => (fst e, (fst (snd e), g (snd (snd e))))) m) = names m.
  Proof. unfold names; rewrite map_map; apply map_ext; reflexivity. Qed.
  Lemma recount_find (m : entries) (g : Serie T -> Serie T) x :
    map_find x (map (fun e => (fst e, (fst (snd e), g (snd (snd e))))) m) = option_map (fun c => (fst c, g (snd c))) (map_find x m).
  Proof. induction m as [|[k e] m IH]; simpl; [reflexivity|]; destruct (String.eqb k x); [reflexivity|exact IH]. Qed.

  Lemma step_ordered d c : ordered (df_series d) -> ordered (df_series (dstep d c)).
  Proof.
    intros Ho; destruct c; simpl; unfold df_set, df_create, df_add, df_ref, df_modify, ordered; simpl;
      rewrite ?modify_names; try (apply at_ordered; exact Ho).
    - unfold df_del; destruct (map_find name (df_series d)); [apply erase_ordered|]; exact Ho.
    - constructor.
    - unfold df_setCount; destruct (negb _ && _); simpl; [|exact Ho].
      match goal with |- context[reCount _ ?c] => rewrite (recount_names (df_series d) (fun s => reCount s c)) end; exact Ho.
  Qed.
  Lemma run_ordered cs : forall d, ordered (df_series d) -> ordered (df_series (drun cs d)).
  Proof. induction cs as [|c cs IH]; intros d Ho; [exact Ho|]; apply IH, step_ordered, Ho. Qed.

  Lemma modify_at_find m a n f x : ordered m ->
    stored (map_modify n f (map_at a n m)) x =
    if String.eqb n x then Some (f (match stored m n with Some s => s | None => serie_default end)) else stored m x.
  Proof.
    intros Ho; unfold stored; rewrite modify_find, (at_find m a n x Ho).
    destruct (String.eqb_spec n x) as [<-|Hne].
    - destruct (map_find n m) as [[a' s]|]; reflexivity.
    - destruct (map_find x m) as [[a' s]|]; reflexivity.
  Qed.
End Maps.

(** ** Specification: a count and a partial function from names to Series.  (Series read back have dimension 3: C50.) *)
Section FiniteMap.
  Context {T : Type} {NT : Num T}.

  Definition in_dim3 (s : Serie T) : Serie T := mkSerie (s_ s) (count_ s) 3 (itemSize_ s).
  Definition fmap : Type := string -> option (Serie T).
  Definition bind_name (m : fmap) (n : string) (s : option (Serie T)) : fmap := fun x => if String.eqb n x then s else m x.
  Definition or_default (s : option (Serie T)) : Serie T := match s with Some s => s | None => mkSerie [] 0 3 0 end.
  Definition zeroed (c : Z) (s : Serie T) : Serie T :=
    mkSerie (repeat n0 (Z.to_nat (u32 (c * itemSize_ s)))) c (dimension_ s) (itemSize_ s).

  Definition spec_step (st : Z * fmap) (c : dcall T) : Z * fmap :=
    let '(cnt, m) := st in
    let add n s := (if cnt =? 0 then count_ s else cnt, bind_name m n (Some (in_dim3 s))) in
    match c with
    | DAdd _ n s | DSet _ n s => add n s
    | DCreate _ n k c => add n (serie_n (s32 k) c 3)
    | DDel n => (cnt, bind_name m n None)
    | DClear => (cnt, fun _ => None)
    | DRef _ n => (cnt, bind_name m n (Some (or_default (m n))))
    | DModify _ n f => (cnt, bind_name m n (Some (f (or_default (m n)))))
    | DSetCount c => if negb (cnt =? c) && (0 <? c) then (c, fun n => option_map (zeroed c) (m n)) else (cnt, m)
    end.

  (** No method of Serie changes the dimension of an existing object, so no change through a reference does. *)
  Definition keeps_dim (c : dcall T) : Prop :=
    match c with DModify _ _ f => forall s, dimension_ (f s) = dimension_ s | _ => True end.

  Definition models (d : Dataframe T) (st : Z * fmap) : Prop :=
    df_count d = fst st /\ (forall n, stored (df_series d) n = snd st n) /\
    (forall n s, snd st n = Some s -> dimension_ s = 3) /\ ordered (df_series d).

  Lemma default_eq : serie_default = or_default None.
  Proof. reflexivity. Qed.

  Lemma step_models d st c : keeps_dim c -> models d st -> models (dstep d c) (spec_step st c).
  Proof.
    intros Hk (Hc & Hm & Hd & Ho); pose proof (step_ordered d c Ho) as Ho'.
    destruct st as [cnt m]; simpl in Hc, Hm, Hd.
    assert (Hadd : forall a n s, models (df_add a d n s)
              (if cnt =? 0 then count_ s else cnt, bind_name m n (Some (in_dim3 s)))).
    { intros a n s; split; [unfold df_add; simpl; rewrite Hc; reflexivity|]; split; [|split].
      - intros x; unfold df_add; simpl; rewrite modify_at_find by exact Ho; unfold bind_name.
        destruct (String.eqb n x); [|apply Hm]; f_equal; unfold serie_assign, in_dim3; f_equal.
        rewrite Hm; destruct (m n) as [t|] eqn:Et; [apply (Hd n); exact Et|reflexivity].
      - intros x t; simpl; unfold bind_name; destruct (String.eqb n x); [|apply Hd]; intros E; injection E as <-; reflexivity.
      - exact (step_ordered d (DAdd a n s) Ho). }
    destruct c as [a n s|a n s|a n k c|n| |a n|a n f|c]; simpl in *; try (apply Hadd).
    - (* del *)
      split; [unfold df_del; destruct (map_find n (df_series d)); exact Hc|]; split; [|split; [|exact Ho']].
      + intros x; unfold bind_name; unfold df_del; simpl.
        destruct (map_find n (df_series d)) as [e|] eqn:En; simpl.
        * unfold stored; rewrite erase_find by exact Ho; destruct (String.eqb n x); [reflexivity|apply Hm].
        * destruct (String.eqb_spec n x) as [<-|]; [unfold stored; rewrite En; reflexivity|apply Hm].
      + intros x t; simpl; unfold bind_name; destruct (String.eqb n x); [discriminate|apply Hd].
    - (* clear *) split; [exact Hc|]; split; [reflexivity|]; split; [discriminate|constructor].
    - (* ref *)
      split; [exact Hc|]; split; [|split; [|exact Ho']].
      + intros x; unfold df_ref, bind_name, stored; simpl; rewrite at_find by exact Ho; rewrite <- !Hm; unfold stored.
        destruct (String.eqb_spec n x) as [<-|]; destruct (map_find _ (df_series d)); reflexivity.
      + intros x t; simpl; unfold bind_name; destruct (String.eqb n x); [|apply Hd]; intros E; injection E as <-.
        destruct (m n) eqn:En; [exact (Hd _ _ En)|reflexivity].
    - (* modify *)
      split; [exact Hc|]; split; [|split; [|exact Ho']].
      + intros x; unfold df_modify, bind_name; simpl; rewrite modify_at_find by exact Ho; rewrite !Hm.
        destruct (String.eqb n x); [|reflexivity]; destruct (m n); reflexivity.
      + intros x t; simpl; unfold bind_name; destruct (String.eqb n x); [|apply Hd]; intros E; injection E as <-; rewrite Hk.
        destruct (m n) eqn:En; [exact (Hd _ _ En)|reflexivity].
    - (* setCount *)
      unfold df_setCount in *; rewrite Hc in *; destruct (negb (cnt =? c) && (0 <? c)); [|split; [exact Hc|auto]].
      split; [reflexivity|]; split; [|split; [|exact Ho']].
      + intros x; simpl; unfold stored; rewrite (recount_find (df_series d) (fun s => reCount s c)), <- Hm; unfold stored; destruct (map_find x (df_series d)); reflexivity.
      + intros x t; simpl; destruct (m x) eqn:Ex; [|discriminate]; intros E; injection E as <-; exact (Hd _ _ Ex).
  Qed.
  Lemma run_models cs : forall d st, Forall keeps_dim cs -> models d st ->
    models (drun cs d) (fold_left spec_step cs st).
  Proof.
    induction cs as [|c cs IH]; intros d st Hk Hm; [exact Hm|].
    inversion Hk; subst; simpl; apply IH; [assumption|apply step_models; assumption].
  Qed.
End FiniteMap.
Arguments fmap T : clear implicits.

(** ** C48 *)
Theorem C48_finite_map :
  forall (T : Type) (NT : Num T) c0 (cs : list (dcall T)), Forall keeps_dim cs ->
  let d := drun cs (df_new c0) in
  let st := fold_left spec_step cs (c0, fun _ => None) in
  df_count d = fst st /\
  (forall n, df_get d n = or_default (snd st n)) /\
  (forall n, df_contains_name d n = match snd st n with Some _ => true | None => false end) /\
  (forall n, In n (names (df_series d)) <-> snd st n <> None) /\
  StronglySorted name_lt (names (df_series d)).
Proof.
  intros T NT c0 cs Hk d st.
  assert (Hm : models d st).
  { apply run_models; [exact Hk|]; split; [reflexivity|]; split; [reflexivity|]; split; [discriminate|constructor]. }
  destruct Hm as (Hc & Hm & _ & Ho); split; [exact Hc|]; split; [|split; [|split; [|exact Ho]]].
  - intros n; rewrite <- Hm; unfold df_get, stored; destruct (map_find n (df_series d)); reflexivity.
  - intros n; rewrite <- Hm; unfold df_contains_name, stored; destruct (map_find n (df_series d)); reflexivity.
  - intros n; rewrite <- Hm; unfold stored; pose proof (find_none (df_series d) n) as Hf.
    destruct (map_find n (df_series d)) as [e|] eqn:E; simpl.
    + split; [discriminate|intros _]; apply find_in in E; apply (in_map fst) in E; exact E.
    + split; [intros Hin; exfalso; apply Hf in Hin; auto|congruence].
Qed.
Print Assumptions C48_finite_map.

Local Open Scope string_scope.
Example C48_witness :
  let a := mk 1 (col [#1; #2]) 3 in let b := mk 2 [[#3; #4]] 3 in
  let d := drun [DAdd 10 "x" a; DAdd 11 "b" b; DRef 12 "q"; DSet 13 "x" b; DDel "b"; DCreate 14 "b" 1 2] (df_new 0) in
  names (df_series d) = ["b"; "q"; "x"] /\ df_get d "x" = b /\ df_get d "absent" = serie_default /\
  df_contains_name d "q" = true /\ df_contains_name d "absent" = false /\ df_count d = 2.
Proof. repeat split. Qed.
Local Close Scope string_scope.

(** ** C49 *)
(** nothing is refused; looking up an absent name, too, stores a Serie of count 0 *)
Theorem C49_same_count_refuted :
  exists (a b : Serie F64), count a <> count b /\
    (let d := drun [DAdd 1 "a"%string a; DAdd 2 "b"%string b] (df_new 0) in
     count (df_get d "a"%string) <> count (df_get d "b"%string)) /\
    (let d := drun [DAdd 1 "a"%string a; DRef 2 "b"%string] (df_new 0) in
     df_contains_name d "b"%string = true /\ count (df_get d "a"%string) <> count (df_get d "b"%string)).
Proof.
  exists (mk 1 (col [#1; #2]) 3), (mk 1 (col [#1]) 3); split; [discriminate|]; split; [discriminate|].
  split; [reflexivity|discriminate].
Qed.
Print Assumptions C49_same_count_refuted.

(** It holds as long as only Series of the current count are stored (or of any count while nothing is stored and no count set),
    absent names are not looked up through a non-const Dataframe, and changes through references keep the count. *)
Definition count_call {T} {NT : Num T} (d : Dataframe T) (c : dcall T) : Prop :=
  let may n := n = df_count d \/ (df_count d = 0 /\ df_series d = []) in
  match c with
  | DAdd _ _ s | DSet _ _ s => may (count s)
  | DCreate _ _ _ c => may c
  | DRef _ n => df_contains_name d n = true \/ df_count d = 0
  | DModify _ n f => (df_contains_name d n = true \/ df_count d = 0) /\ (forall s, count (f s) = count s)
  | _ => True
  end.
Fixpoint count_calls {T} {NT : Num T} (d : Dataframe T) (cs : list (dcall T)) : Prop :=
  match cs with
  | [] => True
  | c :: r => count_call d c /\ count_calls (dstep d c) r
  end.

Section C49.
  Context {T : Type} {NT : Num T}.
  Definition one_count (d : Dataframe T) : Prop := ordered (df_series d) /\ forall n s, stored (df_series d) n = Some s -> count s = df_count d.

  Lemma step_one_count d c : count_call d c -> one_count d -> one_count (dstep d c).
  Proof.
    intros Hc (Ho & Hs); split; [apply step_ordered; exact Ho|].
    assert (Hadd : forall a n s, (count s = df_count d \/ (df_count d = 0 /\ df_series d = [])) ->
      forall x t, stored (df_series (df_add a d n s)) x = Some t -> count t = df_count (df_add a d n s)).
    { intros a n s Hcnt x t; unfold df_add; simpl; rewrite modify_at_find by exact Ho.
      destruct Hcnt as [E|[E0 En]].
      - replace (if df_count d =? 0 then count s else df_count d) with (df_count d) by (destruct (df_count d =? 0); congruence).
        destruct (String.eqb n x); [intros H; injection H as <-; exact E|apply Hs].
      - rewrite E0; simpl; destruct (String.eqb n x); [intros H; injection H as <-; reflexivity|].
        rewrite En; discriminate. }
    destruct c as [a n s|a n s|a n k c|n| |a n|a n f|c]; simpl in *; try (apply Hadd; exact Hc).
    - intros x t; unfold df_del; destruct (map_find n (df_series d)) eqn:E; simpl; [|apply Hs].
      unfold stored; rewrite erase_find by exact Ho; destruct (String.eqb n x); [discriminate|apply Hs].
    - discriminate.
    - intros x t; unfold df_ref; simpl; unfold stored; rewrite at_find by exact Ho.
      destruct (map_find x (df_series d)) eqn:E; [intros H; apply (Hs x); unfold stored; rewrite E; exact H|].
      destruct (String.eqb_spec n x) as [<-|]; [|discriminate]; intros H; injection H as <-.
      destruct Hc as [Hc|Hc]; [unfold df_contains_name in Hc; rewrite E in Hc; discriminate|rewrite Hc; reflexivity].
    - intros x t; unfold df_modify; simpl; rewrite modify_at_find by exact Ho; destruct Hc as [Hc Hf].
      destruct (String.eqb n x); [|apply Hs]; intros H; injection H as <-; rewrite Hf.
      destruct (stored (df_series d) n) as [u|] eqn:Eu; [apply (Hs n); exact Eu|].
      destruct Hc as [Hc|Hc]; [unfold df_contains_name in Hc; unfold stored in Eu; destruct (map_find n (df_series d)); discriminate|rewrite Hc; reflexivity].
    - unfold df_setCount; destruct (negb (df_count d =? c) && (0 <? c)); simpl; [|exact Hs].
      intros x t; unfold stored; rewrite (recount_find (df_series d) (fun s => reCount s c)); destruct (map_find x (df_series d)); [|discriminate].
      intros H; injection H as <-; reflexivity.
  Qed.
End C49.

Theorem C49_same_count_partial :
  forall (T : Type) (NT : Num T) c0 (cs : list (dcall T)),
  count_calls (df_new c0) cs ->
  let d := drun cs (df_new c0) in
  forall n, df_contains_name d n = true -> count (df_get d n) = df_count d.
Proof.
  intros T NT c0 cs Hcs d n Hn.
  assert (G : forall d0, count_calls d0 cs -> one_count d0 -> one_count (drun cs d0)).
  { clear; induction cs as [|c cs IH]; intros d0 Hc Ho; [exact Ho|]; destruct Hc as [Hc Hcs]; simpl.
    apply IH; [exact Hcs|apply step_one_count; assumption]. }
  destruct (G (df_new c0) Hcs) as [_ Hs]; [split; [constructor|discriminate]|].
  fold d in Hs; specialize (Hs n); unfold df_contains_name, df_get, stored in *.
  destruct (map_find n (df_series d)) as [e|]; [|discriminate]; apply Hs; reflexivity.
Qed.
Print Assumptions C49_same_count_partial.

Example C49_witness :
  count_calls (df_new 0) [DAdd 1 "a"%string (mk 1 (col [#1; #2]) 3); DAdd 2 "b"%string (mk 2 [[#1; #2]; [#3; #4]] 3); DRef 3 "a"%string;
    DSetCount 5; DCreate 4 "c"%string 3 5].
Proof. simpl; repeat split; auto. Qed.

(** ** C50 *)
Theorem C50_dimension_refuted :
  exists (s : Serie F64) n, dimension s <> dimension (df_get (drun [DAdd 1 n s] (df_new 0)) n).
Proof. exists (mk 1 (col [#1]) 2), "a"%string; discriminate. Qed.
Print Assumptions C50_dimension_refuted.

(** what is read back always has dimension 3; so the dimension is kept exactly for Series of dimension 3 *)
Theorem C50_dimension_partial :
  forall (T : Type) (NT : Num T) c0 (cs : list (dcall T)) n, Forall keeps_dim cs ->
  dimension (df_get (drun cs (df_new c0)) n) = 3.
Proof.
  intros T NT c0 cs n Hk.
  assert (Hm : models (drun cs (df_new c0)) (fold_left spec_step cs (c0, fun _ => None))).
  { apply run_models; [exact Hk|]; split; [reflexivity|]; split; [reflexivity|]; split; [discriminate|constructor]. }
  destruct Hm as (_ & Hm & Hd & _); specialize (Hm n); unfold df_get, stored in *.
  destruct (map_find n _) as [e|]; [|reflexivity]; apply (Hd n); rewrite <- Hm; reflexivity.
Qed.
Print Assumptions C50_dimension_partial.

(** ** C51 *)
Section C51.
  Context {T : Type} {NT : Num T}.
  Implicit Types m : list (entry T).
  Lemma at_present m a n : ordered m -> In n (names m) -> map_at a n m = m.
  Proof.
    induction m as [|[k e] m IH]; intros Ho Hin; [destruct Hin|]; simpl.
    inversion Ho as [|? ? Ho' Hlt]; subst; destruct Hin as [<-|Hin]; [simpl; rewrite name_refl; reflexivity|].
    rewrite Forall_forall in Hlt; rewrite String.compare_antisym, (Hlt n Hin : String.compare k n = Lt); simpl.
    rewrite IH; auto.
  Qed.
  Lemma at_absent m a n : ~ In n (names m) ->
    exists pre post, m = pre ++ post /\ map_at a n m = pre ++ (n, (a, serie_default)) :: post.
  Proof.
    induction m as [|[k e] m IH]; intros Hn; simpl; [exists [], []; auto|].
    destruct (String.compare n k) eqn:E.
    - apply String.compare_eq_iff in E; exfalso; apply Hn; left; auto.
    - exists [], ((k, e) :: m); auto.
    - destruct IH as (pre & post & -> & Eq); [intros Hin; apply Hn; right; exact Hin|].
      exists ((k, e) :: pre), post; rewrite Eq; auto.
  Qed.
  Lemma contains_names (d : Dataframe T) n : df_contains_name d n = true <-> In n (names (df_series d)).
  Proof.
    unfold df_contains_name; pose proof (find_none (df_series d) n) as Hf.
    destruct (map_find n (df_series d)) as [e|] eqn:E; split; auto; try discriminate.
    - intros _; apply find_in in E; apply (in_map fst) in E; exact E.
    - intros Hin; exfalso; apply Hf; auto.
  Qed.
End C51.

(** The const look-ups [df_get] and [df_contains_name] are functions of the Dataframe and give no new one.  A non-const look-up of a
    stored name changes nothing; of an absent name, it inserts one default Serie.  (Every reachable Dataframe is [ordered]: C48.) *)
Theorem C51_lookups :
  forall (T : Type) (NT : Num T) c0 (cs : list (dcall T)) a n,
  let d := drun cs (df_new c0) in
  (df_contains_name d n = true -> df_ref a d n = d) /\
  (df_contains_name d n = false ->
     exists pre post, df_series d = pre ++ post /\
       df_ref a d n = mkDataframe (df_count d) (pre ++ (n, (a, mkSerie [] 0 3 0)) :: post)).
Proof.
  intros T NT c0 cs a n d.
  assert (Ho : ordered (df_series d)) by (apply run_ordered; constructor).
  split; intros Hc.
  - apply contains_names in Hc; unfold df_ref; rewrite (at_present _ a n Ho Hc); destruct d; reflexivity.
  - destruct (at_absent (df_series d) a n) as (pre & post & E1 & E2).
    + intros Hin; apply contains_names in Hin; congruence.
    + exists pre, post; split; [exact E1|]; unfold df_ref; rewrite E2; reflexivity.
Qed.
Print Assumptions C51_lookups.

(** the effect on what is read *)
Theorem C51_reads :
  forall (T : Type) (NT : Num T) c0 (cs : list (dcall T)) a n x,
  let d := drun cs (df_new c0) in
  df_get (df_ref a d n) x = df_get d x /\
  df_contains_name (df_ref a d n) x = (String.eqb n x || df_contains_name d x)%bool.
Proof.
  intros T NT c0 cs a n x d.
  assert (Ho : ordered (df_series d)) by (apply run_ordered; constructor).
  unfold df_get, df_contains_name, df_ref; simpl; rewrite at_find by exact Ho.
  destruct (map_find x (df_series d)); [destruct (String.eqb n x); split; reflexivity|].
  destruct (String.eqb n x); split; reflexivity.
Qed.
Print Assumptions C51_reads.

(** ** C52 *)
Theorem C52_setCount :
  forall (T : Type) (NT : Num T) (d : Dataframe T) c,
  (df_count d <> c -> 0 < c ->
     df_count (df_setCount d c) = c /\ names (df_series (df_setCount d c)) = names (df_series d) /\
     forall n, df_contains_name d n = true ->
       let s := df_get d n in let s' := df_get (df_setCount d c) n in
       count s' = c /\ itemSize s' = itemSize s /\ dimension s' = dimension s /\
       Forall (eq n0) (s_ s') /\
       (0 <= itemSize_ s < 2 ^ 31 -> c < 2 ^ 32 -> itemSize_ s * c < 2 ^ 32 ->
          repr s' (itemSize_ s) (repeat (repeat n0 (Z.to_nat (itemSize_ s))) (Z.to_nat c)))) /\
  (df_count d = c \/ c <= 0 -> df_setCount d c = d).
Proof.
  intros T NT d c; unfold df_setCount; split.
  - intros Hne Hc; destruct (Z.eqb_spec (df_count d) c) as [?|_]; [contradiction|]; replace (0 <? c) with true by lia; simpl.
    split; [reflexivity|]; split; [apply (recount_names (df_series d) (fun s => reCount s c))|].
    intros n Hn; unfold df_contains_name, df_get in *; simpl; rewrite (recount_find (df_series d) (fun s => reCount s c)).
    destruct (map_find n (df_series d)) as [[a s]|]; [|discriminate]; simpl.
    split; [reflexivity|]; split; [reflexivity|]; split; [reflexivity|]; split.
    + unfold replicate; clear; induction (Z.to_nat _); simpl; constructor; auto.
    + intros Hk Hc2 Hm; split; [reflexivity|]; split; [unfold len; simpl; rewrite repeat_length; lia|]; split; [|split; [|split; [|split]]].
      * exists []; rewrite app_nil_r; simpl.
        assert (E : u32 (c * itemSize_ s) = c * itemSize_ s) by (apply u32_small; nia); rewrite E.
        unfold replicate; rewrite Z2Nat.inj_mul by lia.
        generalize (Z.to_nat c); intros m; clear; induction m as [|m IH]; simpl; [reflexivity|].
        rewrite repeat_app, IH; reflexivity.
      * unfold rows_of_size; apply Forall_forall; intros x Hx; apply repeat_spec in Hx; subst x.
        unfold len; rewrite repeat_length; lia.
      * lia.
      * unfold len; rewrite repeat_length; lia.
      * unfold len; rewrite repeat_length; lia.
  - intros [->|Hc]; [rewrite Z.eqb_refl; reflexivity|]; replace (0 <? c) with false by lia; rewrite andb_false_r; reflexivity.
Qed.
Print Assumptions C52_setCount.

Example C52_witness :
  let d := drun [DAdd 1 "a"%string (mk 2 [[#1; #2]; [#3; #4]] 3)] (df_new 0) in
  df_count d = 2 /\ df_contains_name d "a"%string = true /\ itemSize_ (df_get d "a"%string) = 2 /\
  df_get (df_setCount d 1) "a"%string = mk 2 [[n0; n0]] 3.
Proof. repeat split. Qed.

(** ** C53 *)
(** A live object has an address of its own.  [outside]: the addresses of Serie objects that are not stored in the Dataframe. *)
Section C53.
  Context {T : Type} {NT : Num T}.
  Definition addrs (d : Dataframe T) : list Z := map (fun e : entry T => fst (snd e)) (df_series d).
  Definition new_addr (c : dcall T) : option Z :=
    match c with
    | DAdd a _ _ | DSet a _ _ | DCreate a _ _ _ | DRef a _ | DModify a _ _ => Some a
    | _ => None
    end.
  Fixpoint fresh_calls (outside : Z -> Prop) (d : Dataframe T) (cs : list (dcall T)) : Prop :=
    match cs with
    | [] => True
    | c :: r => (forall a, new_addr c = Some a -> ~ outside a /\ ~ In a (addrs d)) /\ fresh_calls outside (dstep d c) r
    end.
  Definition distinct (outside : Z -> Prop) (d : Dataframe T) : Prop :=
    NoDup (addrs d) /\ forall a, In a (addrs d) -> ~ outside a.

  Lemma addrs_modify c n f (m : list (entry T)) : addrs (mkDataframe c (map_modify n f m)) = addrs (mkDataframe c m).
  Proof.
    unfold addrs; simpl; induction m as [|[k [a s]] m IH]; simpl; [reflexivity|].
    destruct (String.eqb k n); simpl; [reflexivity|rewrite IH; reflexivity].
  Qed.
  Lemma distinct_at outside c c' a n (m : list (entry T)) : ~ outside a -> ~ In a (addrs (mkDataframe c m)) ->
    distinct outside (mkDataframe c m) -> distinct outside (mkDataframe c' (map_at a n m)).
  Proof.
    unfold distinct, addrs; simpl; intros Ha Hn (Hd & Ho).
    assert (G : map_at a n m = m \/ exists pre post, m = pre ++ post /\ map_at a n m = pre ++ (n, (a, serie_default)) :: post).
    { clear; induction m as [|[k e] m [IH|(pre & post & E1 & E2)]]; simpl.
      - right; exists [], []; auto.
      - destruct (String.compare n k); [left; reflexivity|right; exists [], ((k, e) :: m); auto|left; rewrite IH; reflexivity].
      - destruct (String.compare n k); [left; reflexivity|right; exists [], ((k, e) :: m); auto|].
        right; exists ((k, e) :: pre), post; rewrite E2, E1; auto. }
    destruct G as [->|(pre & post & Em & ->)]; [auto|].
    subst m; rewrite !map_app in *; simpl; split.
    - apply NoDup_Add with (a := a) (l := map (fun e : entry T => fst (snd e)) pre ++ map (fun e : entry T => fst (snd e)) post);
        [apply Add_app|]; auto.
    - intros x Hx; apply in_app_or in Hx; destruct Hx as [Hx|[<-|Hx]]; [| exact Ha|]; apply Ho, in_or_app; auto.
  Qed.
  Lemma step_distinct outside d c : (forall a, new_addr c = Some a -> ~ outside a /\ ~ In a (addrs d)) ->
    distinct outside d -> distinct outside (dstep d c).
  Proof.
    intros Hf Hd; destruct d as [cnt m].
    assert (Hat : forall a n c', new_addr c = Some a -> distinct outside (mkDataframe c' (map_at a n m))).
    { intros a n c' E; destruct (Hf a E); eapply distinct_at; eassumption. }
    destruct c as [a n s|a n s|a n k c|n| |a n|a n f|c]; simpl;
      unfold df_create, df_set, df_add, df_ref, df_modify, distinct; rewrite ?addrs_modify; try (apply Hat; reflexivity).
    - unfold df_del; simpl; destruct (map_find n m); [|exact Hd]; simpl.
      destruct Hd as [Hd Ho]; unfold addrs in *; simpl in *.
      assert (Hin : forall x, In x (map (fun e : entry T => fst (snd e)) (map_erase n m)) -> In x (map (fun e : entry T => fst (snd e)) m)).
      { clear; induction m as [|[k e] m IH]; simpl; [auto|]; intros x; destruct (String.eqb k n); simpl; intuition. }
      split; [|auto].
      clear Ho Hf Hat; induction m as [|[k e] m IH]; simpl in *; [constructor|]; inversion Hd; subst.
      destruct (String.eqb k n); [assumption|]; simpl; constructor.
      + match goal with H : ~ In _ _ |- _ => intros Hx; apply H; clear -Hx end.
        induction m as [|[k' e'] m IH]; simpl in *; [auto|]; destruct (String.eqb k' n); simpl in *; intuition.
      + apply IH; [assumption|].
        clear; induction m as [|[k' e'] m IH]; simpl; [auto|]; intros x; destruct (String.eqb k' n); simpl; intuition.
    - split; [constructor|contradiction].
    - unfold df_setCount; simpl; destruct (negb (cnt =? c) && (0 <? c)); [|exact Hd].
      unfold addrs; simpl; rewrite map_map; exact Hd.
  Qed.
  Lemma run_distinct outside cs : forall d, fresh_calls outside d cs -> distinct outside d -> distinct outside (drun cs d).
  Proof.
    induction cs as [|c cs IH]; intros d Hf Hd; [exact Hd|]; destruct Hf as [Hf Hr]; simpl.
    apply IH; [exact Hr|apply step_distinct; assumption].
  Qed.
  Lemma name_of d n a s : NoDup (addrs d) -> In (n, (a, s)) (df_series d) -> nameOfSerie d a = n.
  Proof.
    unfold nameOfSerie, addrs; induction (df_series d) as [|[k [a' s']] m IH]; intros Hd Hin; [destruct Hin|].
    inversion Hd as [|? ? Hn Hd']; subst; simpl in *; destruct (Z.eqb_spec a' a) as [->|Hne].
    - destruct Hin as [E|Hin]; [injection E as -> _; reflexivity|]; exfalso; apply Hn.
      apply (in_map (fun e : entry T => fst (snd e))) in Hin; exact Hin.
    - destruct Hin as [E|Hin]; [congruence|apply IH; assumption].
  Qed.
End C53.

(** the address of the Serie stored under a name *)
Definition addr_of {T} (d : Dataframe T) (n : string) : option Z := option_map fst (map_find n (df_series d)).

Theorem C53_nameOfSerie :
  forall (T : Type) (NT : Num T) outside c0 (cs : list (dcall T)), fresh_calls outside (df_new c0) cs ->
  let d := drun cs (df_new c0) in
  (forall n, df_contains_name d n = true -> exists a, addr_of d n = Some a /\ nameOfSerie d a = n) /\
  (forall a, outside a -> nameOfSerie d a = ""%string /\ df_contains_serie d a = false).
Proof.
  intros T NT outside c0 cs Hf d.
  assert (Hd : distinct outside d) by (apply run_distinct; [exact Hf|split; [constructor|contradiction]]).
  destruct Hd as [Hd Ho]; split.
  - intros n Hn; unfold df_contains_name, addr_of in *.
    destruct (map_find n (df_series d)) as [[a s]|] eqn:E; [|discriminate].
    exists a; split; [reflexivity|]; apply (name_of d n a s Hd), find_in, E.
  - intros a Ha; assert (E : nameOfSerie d a = ""%string); [|unfold df_contains_serie; rewrite E; auto].
    unfold nameOfSerie; destruct (find _ (df_series d)) as [e|] eqn:E; [|reflexivity].
    apply find_some in E; destruct E as [Hin Ea]; apply Z.eqb_eq in Ea; subst a.
    exfalso; apply (Ho (fst (snd e))); [apply (in_map (fun e : entry T => fst (snd e))); exact Hin|exact Ha].
Qed.
Print Assumptions C53_nameOfSerie.

(** contains(Serie) is true for every stored Serie but the one under the empty name *)
Theorem C53_contains_partial :
  forall (T : Type) (NT : Num T) outside c0 (cs : list (dcall T)), fresh_calls outside (df_new c0) cs ->
  let d := drun cs (df_new c0) in
  forall n, df_contains_name d n = true -> exists a, addr_of d n = Some a /\ (df_contains_serie d a = true <-> n <> ""%string).
Proof.
  intros T NT outside c0 cs Hf d n Hn.
  destruct (C53_nameOfSerie T NT outside c0 cs Hf) as [H _]; destruct (H n Hn) as (a & Ha & En).
  exists a; split; [exact Ha|]; unfold df_contains_serie; fold d in En; rewrite En.
  destruct n; simpl; split; congruence.
Qed.
Print Assumptions C53_contains_partial.

Theorem C53_contains_refuted :
  exists (s : Serie F64) a, let d := drun [DAdd a ""%string s] (df_new 0) in
    addr_of d ""%string = Some a /\ df_contains_name d ""%string = true /\ df_contains_serie d a = false.
Proof. exists (mk 1 (col [#1]) 3), 7; repeat split. Qed.
Print Assumptions C53_contains_refuted.

Example C53_witness :
  let s := mk 1 (col [#1]) 3 in
  fresh_calls (fun a => a = 99) (df_new 0) [DAdd 5 "b"%string s; DAdd 6 "a"%string s; DDel "b"%string; DRef 5 "c"%string].
Proof.
  cbn -[mk]; split; [|split; [|split; [|split; [|exact I]]]]; intros a E; try discriminate; injection E as <-;
    (split; [discriminate|simpl; intuition discriminate]).
Qed.
