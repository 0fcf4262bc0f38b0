(** * C26: what becomes of the dimension. *)
From Verif Require Import Base Num Serie Spec BaseFacts SerieFacts Functional FunctionalFacts Utils Mathf.
From Verif Require Import F64 Props_Functional.
Open Scope Z_scope.

(** every returned Serie has dimension [d] *)
Definition gives {A} (P : A -> Prop) (o : outcome A) : Prop := forall a, o = Ok a -> P a.
Definition dim3 {T} (s : Serie T) : Prop := dimension s = 3.

Lemma gives_bind {A B} (P : B -> Prop) (m : outcome A) k : (forall a, m = Ok a -> gives P (k a)) -> gives P (let* a := m in k a).
Proof. intros H b E; destruct m as [a| |]; try discriminate; exact (H a eq_refl b E). Qed.
Lemma gives_foldO {A B} (P : A -> Prop) (f : A -> B -> outcome A) l : (forall a b, P a -> gives P (f a b)) ->
  forall a, P a -> gives P (foldO f l a).
Proof.
  intros Hf; induction l as [|b l IH]; intros a Ha r E; simpl in E; [injection E as <-; exact Ha|].
  destruct (f a b) as [a'| |] eqn:F; try discriminate; exact (IH a' (Hf a b Ha a' F) r E).
Qed.
Lemma gives_mapO {A B} (P : B -> Prop) (f : A -> outcome B) l : (forall a, gives P (f a)) -> gives (Forall P) (mapO f l).
Proof.
  intros Hf; induction l as [|a l IH]; intros r E; simpl in E; [injection E as <-; constructor|].
  destruct (f a) as [b| |] eqn:F; try discriminate; cbn [obind] in E; destruct (mapO f l) as [bs| |] eqn:G; try discriminate.
  injection E as <-; constructor; [exact (Hf a b F)|exact (IH bs eq_refl)].
Qed.
Lemma gives_mbind {St A B} (P : B -> Prop) (m : M St A) k st : (forall a st', gives P (fst (k a st'))) ->
  gives P (fst (mbind m k st)).
Proof. intros H; unfold mbind; destruct (m st) as [[a| |] st']; [apply H| |]; intros b E; discriminate. Qed.

Section Dim.
  Context {T : Type} {NT : Num T}.
  Lemma serie_of_dim (k : Z) (l : list T) : gives dim3 (serie_of k l 3).
  Proof. intros s E; unfold serie_of in E; destruct (k =? 0); [discriminate|]; destruct (len l mod u64 k =? 0) eqn:?; injection E as <-; reflexivity. Qed.
  Lemma set_array_dim (s : Serie T) i v : dim3 s -> gives dim3 (set_array s i v).
  Proof.
    intros H t E; unfold set_array, write_item in E; destruct (count_ s <=? i); [discriminate|]; destruct (negb _); [discriminate|].
    destruct (foldO _ _ _); try discriminate; injection E as <-; exact H.
  Qed.
  Lemma set_double_dim (s : Serie T) i x : dim3 s -> gives dim3 (set_double s i x).
  Proof.
    intros H t E; unfold set_double in E; destruct (len (s_ s) <=? i); [discriminate|]; destruct (wr _ _ _); try discriminate.
    injection E as <-; exact H.
  Qed.
  Lemma take_s_dim (s : Serie T) l : gives dim3 (take_s s l).
  Proof.
    unfold take_s, copy_s; apply gives_foldO; [|reflexivity]; intros r i Hr; apply gives_bind; intros x _; apply set_double_dim, Hr.
  Qed.
  Lemma take_v_dim (s : Serie T) l : gives dim3 (take_v s l).
  Proof.
    unfold take_v, copy_v; apply gives_foldO; [|reflexivity]; intros r i Hr; apply gives_bind; intros x _; apply set_array_dim, Hr.
  Qed.
  Lemma put_next_dim (s : Serie T) i st : dim3 (fst st) -> gives (fun p => dim3 (fst p)) (put_next s i st).
  Proof.
    intros H; unfold put_next; apply gives_bind; intros v _; apply gives_bind; intros r E q Q; injection Q as <-; exact (set_array_dim _ _ _ H r E).
  Qed.
  Lemma put_next_if_dim (s : Serie T) i st : dim3 (fst st) -> gives (fun p => dim3 (fst p)) (put_next_if s i st).
  Proof. intros H; unfold put_next_if; destruct (i <? count s); [apply put_next_dim, H|]; intros q Q; injection Q as <-; exact H. Qed.
  Lemma put_next_all_dim (s : Serie T) st : dim3 (fst st) -> gives (fun p => dim3 (fst p)) (put_next_all s st).
  Proof.
    unfold put_next_all; apply gives_foldO with (P := fun p : Serie T * Z => dim3 (fst p)); intros a b; apply put_next_dim.
  Qed.
  Lemma copy_range_dim (s : Serie T) a n : gives dim3 (copy_range s a n).
  Proof. unfold copy_range; apply gives_foldO; [|reflexivity]; intros r i Hr; apply gives_bind; intros x _; apply set_array_dim, Hr. Qed.
  Lemma map_arr_dim {St A} get (cb : A -> Z -> M St (list T)) n st : gives dim3 (fst (map_arr get cb n st)).
  Proof.
    unfold map_arr; destruct (n =? 0); [intros t E; injection E as <-; reflexivity|].
    apply gives_mbind; intros x0 st0; apply gives_mbind; intros f st1; apply gives_mbind; intros l st2; apply serie_of_dim.
  Qed.
End Dim.

(** Whatever the input dimension, every Serie returned has dimension 3; hence an input dimension of 3 is kept. *)
Theorem C26_dimension_partial :
  forall (T : Type) (NT : Num T) (St : Type) (st : St) (s : Serie T) (ss : list (Serie T)),
  dimension s = 3 -> Forall (fun t => dimension t = 3) ss ->
  (forall cb t, fst (filter_s cb s st) = Ok t -> dimension t = dimension s) /\
  (forall cb t, fst (filter_v cb s st) = Ok t -> dimension t = dimension s) /\
  (forall cb t, fst (reject_s cb s st) = Ok t -> dimension t = dimension s) /\
  (forall cb t, fst (reject_v cb s st) = Ok t -> dimension t = dimension s) /\
  (forall cb t u, fst (partition_s cb s st) = Ok (t, u) -> dimension t = dimension s /\ dimension u = dimension s) /\
  (forall cb t u, fst (partition_v cb s st) = Ok (t, u) -> dimension t = dimension s /\ dimension u = dimension s) /\
  (forall b s' t, merge2 s s' b = Ok t -> dimension t = dimension s) /\
  (forall b t, mergeN b (s :: ss) = Ok t -> dimension t = dimension s) /\
  (forall t, concat_series (s :: ss) = Ok t -> dimension t = dimension s) /\
  (forall n ts, partition_n n s = Ok ts -> Forall (fun t => dimension t = dimension s) ts) /\
  (forall n tss, partition_n_multi n (s :: ss) = Ok tss -> Forall (Forall (fun t => dimension t = dimension s)) tss) /\
  (forall sorter comp t, sort_by sorter comp s = Ok t -> dimension t = dimension s) /\
  (forall t, negate s = Ok t -> dimension t = dimension s).
Proof.
  intros T NT St st s ss Hs Hss; rewrite Hs; clear Hs Hss.
  change (fun t : Serie T => dimension t = 3) with (@dim3 T).
  split; [intros cb; change (gives dim3 (fst (filter_s cb s st))); unfold filter_s; apply gives_mbind; intros l st'; apply take_s_dim|].
  split; [intros cb; change (gives dim3 (fst (filter_v cb s st))); unfold filter_v; apply gives_mbind; intros l st'; apply take_v_dim|].
  split; [intros cb; change (gives dim3 (fst (reject_s cb s st))); unfold reject_s; apply gives_mbind; intros l st'; apply take_s_dim|].
  split; [intros cb; change (gives dim3 (fst (reject_v cb s st))); unfold reject_v; apply gives_mbind; intros l st'; apply take_v_dim|].
  split; [|split].
  - intros cb t u; revert t u; assert (H : gives (fun p : Serie T * Serie T => dim3 (fst p) /\ dim3 (snd p)) (fst (partition_s cb s st)));
      [|intros t u E; exact (H _ E)].
    unfold partition_s; destruct (negb _); [intros p E; discriminate|]; apply gives_mbind; intros idx st'.
    unfold mbind, lift, ret.
    destruct (take_s s (fst idx)) as [a| |] eqn:E1; try (intros p E; discriminate); cbv beta iota.
    destruct (take_s s (snd idx)) as [b| |] eqn:E2; try (intros p E; discriminate); cbv beta iota.
    intros p E; injection E as <-; split; eapply take_s_dim; eassumption.
  - intros cb t u; revert t u; assert (H : gives (fun p : Serie T * Serie T => dim3 (fst p) /\ dim3 (snd p)) (fst (partition_v cb s st)));
      [|intros t u E; exact (H _ E)].
    unfold partition_v; apply gives_mbind; intros idx st'.
    unfold mbind, lift, ret.
    destruct (take_v s (fst idx)) as [a| |] eqn:E1; try (intros p E; discriminate); cbv beta iota.
    destruct (take_v s (snd idx)) as [b| |] eqn:E2; try (intros p E; discriminate); cbv beta iota.
    intros p E; injection E as <-; split; eapply take_v_dim; eassumption.
  - split; [|split; [|split; [|split; [|split; [|split]]]]].
    + intros b s'; change (gives dim3 (merge2 s s' b)); unfold merge2; destruct (negb _); [intros t E; discriminate|].
      apply gives_bind; intros p E q Q; injection Q as <-; revert p E.
      match goal with |- forall p, ?e = Ok p -> _ => change (gives (fun p : Serie T * Z => dim3 (fst p)) e) end.
      destruct b.
      * apply gives_bind; intros p E; apply put_next_all_dim; eapply put_next_all_dim; [|exact E]; reflexivity.
      * apply gives_foldO with (P := fun p : Serie T * Z => dim3 (fst p)); [|reflexivity].
        intros a i Ha; apply gives_bind; intros p E; apply put_next_if_dim; eapply put_next_if_dim; [|exact E]; exact Ha.
    + intros b; change (gives dim3 (mergeN b (s :: ss))); unfold mergeN; destruct (negb _); [intros t E; discriminate|].
      apply gives_bind; intros p E q Q; injection Q as <-; revert p E.
      match goal with |- forall p, ?e = Ok p -> _ => change (gives (fun p : Serie T * Z => dim3 (fst p)) e) end.
      destruct b; apply gives_foldO with (P := fun p : Serie T * Z => dim3 (fst p)); try reflexivity.
      * intros a i; apply put_next_all_dim.
      * intros a i Ha; apply gives_foldO with (P := fun p : Serie T * Z => dim3 (fst p)); [|exact Ha].
        intros a' s'; apply put_next_if_dim.
    + change (gives dim3 (concat_series (s :: ss))); unfold concat_series; apply gives_bind; intros n _; apply gives_bind.
      intros p E q Q; injection Q as <-; revert p E.
      match goal with |- forall p, ?e = Ok p -> _ => change (gives (fun p : Serie T * Z => dim3 (fst p)) e) end.
      apply gives_foldO with (P := fun p : Serie T * Z => dim3 (fst p)); [|reflexivity]; intros a i; apply put_next_all_dim.
    + intros n; change (gives (Forall dim3) (partition_n n s)); unfold partition_n; destruct (n =? 0); [intros t E; discriminate|].
      assert (H : forall l start ps, Forall dim3 ps -> gives (Forall dim3) (parts_loop s (count s) (count s / n) (count s mod n) l start ps)); [|apply H; constructor].
      induction l as [|i l IH]; intros start ps Hp; cbn [parts_loop]; [intros t E; injection E as <-; exact Hp|].
      apply gives_bind; intros part E; cbv zeta.
      assert (Hp' : Forall dim3 (ps ++ [part])) by (apply Forall_app; split; [exact Hp|constructor; [eapply copy_range_dim; exact E|constructor]]).
      destruct (_ <=? _); [intros t Q; injection Q as <-; exact Hp'|apply IH, Hp'].
    + intros n; change (gives (Forall (Forall dim3)) (partition_n_multi n (s :: ss))); unfold partition_n_multi; destruct (n =? 0); [intros t E; discriminate|].
      apply gives_bind; intros tot _; apply gives_mapO; intros u; unfold partition_one; apply gives_bind.
      intros p E q Q; injection Q as <-; revert p E.
      match goal with |- forall p, ?e = Ok p -> _ => change (gives (fun p : Z * list (Serie T) => Forall dim3 (snd p)) e) end.
      apply gives_foldO with (P := fun p : Z * list (Serie T) => Forall dim3 (snd p)); [|constructor].
      intros a i Ha; cbv zeta; apply gives_bind; intros part E t Q; injection Q as <-; cbn [snd].
      apply Forall_app; split; [exact Ha|constructor; [eapply copy_range_dim; exact E|constructor]].
    + intros sorter comp; change (gives dim3 (sort_by sorter comp s)); unfold sort_by; destruct (negb _); [intros t E; injection E as <-; reflexivity|].
      destruct (itemSize s =? 1); apply gives_bind; intros v _; apply gives_bind; intros w _; apply serie_of_dim.
    + change (gives dim3 (negate s)); unfold negate, run, map_vv; apply map_arr_dim.
Qed.
Print Assumptions C26_dimension_partial.

#[local] Existing Instance F64N.
(** Any other dimension is lost: witnesses of dimension 2. *)
Theorem C26_dimension_refuted :
  exists s : Serie F64, (exists rows, rows <> [] /\ repr s 2 rows) /\ dimension s = 2 /\
  (exists cb t, run (filter_v cb s) = Ok t /\ asArray t = asArray s /\ dimension t <> dimension s) /\
  (exists cb t, run (reject_v cb s) = Ok t /\ asArray t = asArray s /\ dimension t <> dimension s) /\
  (exists cb t u, run (partition_v cb s) = Ok (t, u) /\ asArray t = asArray s /\ dimension t <> dimension s) /\
  (exists t, merge2 s s true = Ok t /\ dimension t <> dimension s) /\
  (exists t, mergeN false [s; s] = Ok t /\ dimension t <> dimension s) /\
  (exists t, concat_series [s; s] = Ok t /\ dimension t <> dimension s) /\
  (exists t, partition_n 1 s = Ok [t] /\ asArray t = asArray s /\ dimension t <> dimension s) /\
  (exists t, partition_n_multi 1 [s] = Ok [[t]] /\ asArray t = asArray s /\ dimension t <> dimension s) /\
  (exists t, sort_default (fun _ _ l => l) s = Ok t /\ dimension t <> dimension s) /\
  (exists t, negate s = Ok t /\ dimension t <> dimension s).
Proof.
  exists (mk 2 [[f64_inf; f64_ninf]] 2); split; [exists [[f64_inf; f64_ninf]]; split; [discriminate|repr_ex]|]; split; [reflexivity|].
  split; [exists (fun _ _ => ret true); eexists; split; [reflexivity|split; [reflexivity|discriminate]]|].
  split; [exists (fun _ _ => ret false); eexists; split; [reflexivity|split; [reflexivity|discriminate]]|].
  split; [exists (fun _ _ => ret true); do 2 eexists; split; [reflexivity|split; [reflexivity|discriminate]]|].
  split; [eexists; split; [reflexivity|discriminate]|].
  split; [eexists; split; [reflexivity|discriminate]|].
  split; [eexists; split; [reflexivity|discriminate]|].
  split; [eexists; split; [reflexivity|split; [reflexivity|discriminate]]|].
  split; [eexists; split; [reflexivity|split; [reflexivity|discriminate]]|].
  split; [eexists; split; [reflexivity|discriminate]|].
  eexists; split; [reflexivity|discriminate].
Qed.
Print Assumptions C26_dimension_refuted.

Example C26_ex :
  let s := mk 2 [[f64_inf; f64_ninf]; [f64_ninf; f64_inf]] 3 in
  exists t, run (filter_v (fun r _ => ret (n_ltb (hd n0 r) n0)) s) = Ok t /\ t = mk 2 [[f64_ninf; f64_inf]] 3.
Proof. eexists; split; [reflexivity|reflexivity]. Qed.
