(** * C153: functions that accept Series of any shape. *)
From Coq Require Import ZArith List Lia Bool.
From Verif Require Import Base Num Serie Functional Mathf Algebra Stats Geo Utils Spec BaseFacts MinMaxFacts Props_Functional Props_Det SafeFacts.
Import ListNotations.
Open Scope Z_scope.

Section Calls.
  Context {T : Type} `{Num T}.

  (** a callback without undefined behaviour of its own *)
  Definition defined {A B} (cb : A -> Z -> M unit B) : Prop := forall x i, run (cb x i) <> UB.
  (** ... giving an array with at least one number and at most as many as it was given *)
  Definition no_longer (cb : list T -> Z -> M unit (list T)) : Prop :=
    forall v i, v <> [] -> match run (cb v i) with Ok r => r <> [] /\ len r <= len v | Throw _ => True | UB => False end.

  (** ** Functions from a Serie to a Serie *)
  Inductive unary : (Serie T -> outcome (Serie T)) -> Prop :=
  | u_copy : unary (fun s => Ok (serie_copy s))
  | u_setValue i v : 0 <= i -> unary (fun s => setValue s i v)
  | u_set_array i v : 0 <= i -> unary (fun s => set_array s i v)
  | u_setScalar i x : 0 <= i -> unary (fun s => setScalar s i x)
  | u_set_double i x : 0 <= i -> unary (fun s => set_double s i x)
  | u_negate : unary negate
  | u_scale f : unary (fun s => scale s f)
  | u_scale_array l : unary (fun s => scale_array s l)
  | u_mult d : unary (fun s => mult s d)
  | u_div d : unary (fun s => div_value d s)
  | u_add v : unary (fun s => add_value s v)
  | u_sub v : unary (fun s => sub_value s v)
  | u_inv : unary inv
  | u_transpose : unary transpose
  | u_fringes f : unary (fun s => fringes s f)
  | u_map_ss cb : defined cb -> unary (fun s => run (map_ss cb s))
  | u_map_vs cb : defined cb -> unary (fun s => run (map_vs cb s))
  | u_map_vv cb : no_longer cb -> unary (fun s => run (map_vv cb s))
  | u_filter_s cb : defined cb -> unary (fun s => run (filter_s cb s))
  | u_filter_v cb : defined cb -> unary (fun s => run (filter_v cb s))
  | u_reject_s cb : defined cb -> unary (fun s => run (reject_s cb s))
  | u_reject_v cb : defined cb -> unary (fun s => run (reject_v cb s))
  | u_findAll_s cb : defined cb -> unary (fun s => run (findAll_s cb s))
  | u_findAll_v cb : defined cb -> unary (fun s => run (findAll_v cb s))
  | u_check_s cb : defined cb -> unary (fun s => run (check_s s cb))
  | u_check_v cb : defined cb -> unary (fun s => run (check_v s cb)).

  (** ** Functions from two Series to a Serie *)
  Inductive binary : (Serie T -> Serie T -> outcome (Serie T)) -> Prop :=
  | b_assign : binary (fun t s => Ok (serie_assign t s))
  | b_add : binary add
  | b_sub : binary sub
  | b_mult : binary mult_serie
  | b_div : binary div_serie
  | b_equality : binary equalityMask
  | b_approximate e : binary (fun s t => approximateEqualityMask s t e).

  (** ** Functions from several Series to a Serie *)
  Inductive several : (list (Serie T) -> outcome (Serie T)) -> Prop :=
  | l_add : several add_list
  | l_sub : several sub_list
  | l_weights w : several (fun ss => weigthedSum ss w)
  | l_add_variadic : several add_variadic.

  (** ** Functions from Series to something else *)
  Inductive reader : forall R : Type, (Serie T -> outcome R) -> Prop :=
  | r_minMax : reader _ minMax
  | r_mean : reader _ mean
  | r_partition_s cb : defined cb -> reader _ (fun s => run (partition_s cb s))
  | r_partition_v cb : defined cb -> reader _ (fun s => run (partition_v cb s))
  | r_find_s cb : defined cb -> reader _ (fun s => run (find_s cb s))
  | r_find_v cb : defined cb -> reader _ (fun s => run (find_v cb s))
  | r_forEach_s cb : defined cb -> reader _ (fun s => run (forEach_s cb s))
  | r_forEach_v cb : defined cb -> reader _ (fun s => run (forEach_v cb s))
  | r_reduce_s (cb : T -> T -> Z -> M unit T) x : (forall a b i, run (cb a b i) <> UB) ->
      reader _ (fun s => run (reduce_s cb s x))
  | r_print : reader _ print
  | r_covariance t : sound t -> reader _ (covariance t).

  (** ** Proofs *)
  Lemma defined_safe {A B} (cb : A -> Z -> M unit B) x i : defined cb -> safelyM (fun _ => True) (cb x i).
  Proof. intros Hc []; apply safely_any; exact (Hc x i). Qed.

  Ltac same_length := intros r Hr; simpl in Hr |- *; lia.

  (** every function that changes the items one by one, keeping their size *)
  Lemma safe_items (g : Z -> Z -> T -> outcome T) (n : list T -> Z) (s : Serie T) : sound s ->
    (forall v, len v = itemSize_ s -> n v = len v) ->
    (forall i k x, 0 <= i < count_ s -> 0 <= k < itemSize_ s -> safely (fun _ => True) (g i k x)) ->
    safely sound (run (map_vv (fun a i => lift (upd_each (n a) (g i) a)) s)).
  Proof.
    intros Hs Hn Hg; apply safelyM_run. eapply safelyM_fst.
    apply (safe_map_vv (fun a i => lift (upd_each (n a) (g i) a)) s Hs). intros v i Hv Hi Hk.
    apply safelyM_lift. rewrite (Hn v Hv). eapply safely_mono; [|apply safe_upd_each; [lia|]]; [same_length|].
    intros k x Hk'; apply Hg; lia.
  Qed.

  Lemma safe_collect {A} (get : Z -> outcome A) (cb : A -> Z -> M unit bool) b n : 0 <= n ->
    (forall i, 0 <= i < n -> safely (fun _ => True) (get i)) -> defined cb ->
    safelyM (fun l => len l <= n /\ Forall (fun i => 0 <= i < n) l) (collect get cb b n).
  Proof.
    intros Hn Hg Hc; unfold collect.
    assert (G : forall l acc, (forall i, In i l -> 0 <= i < n) -> Forall (fun i => 0 <= i < n) acc ->
      safelyM (fun r => len r <= len acc + len l /\ Forall (fun i => 0 <= i < n) r)
        (foldM (fun indices i => let! x := lift (get i) in let! b0 := cb x i in
                 ret (if Bool.eqb b0 b then indices ++ [i] else indices)) l acc : M unit (list Z))).
    { induction l as [|i l IH]; intros acc Hl Ha.
      - apply safelyM_ret; split; [change (len (@nil Z)) with 0; lia|exact Ha].
      - simpl. apply (safelyM_bind (fun r => len r <= len acc + 1 /\ Forall (fun i => 0 <= i < n) r)).
        + apply (safelyM_bind (fun _ => True)); [apply safelyM_lift, Hg, Hl; left; reflexivity|]. intros x _.
          apply (safelyM_bind (fun _ => True)); [apply defined_safe; exact Hc|]. intros y _.
          apply safelyM_ret; destruct (Bool.eqb y b).
          * split; [rewrite len_app; change (len [i]) with 1; lia|].
            apply Forall_app; split; [exact Ha|constructor; [apply Hl; left; reflexivity|constructor]].
          * split; [lia|exact Ha].
        + intros r [Hr Fr]; eapply safelyM_mono; [|apply IH; [intros j Hj; apply Hl; right; exact Hj|exact Fr]].
          intros q [Hq Fq]; rewrite len_cons; split; [lia|exact Fq]. }
    eapply safelyM_mono; [|apply G; [intros i Hi; apply in_iota in Hi; exact Hi|constructor]].
    intros r [Hr Fr]; rewrite len_iota in Hr by lia; change (len (@nil Z)) with 0 in Hr; split; [lia|exact Fr].
  Qed.

  Lemma safe_copy_s (s : Serie T) idx (r : Serie T) : sound r -> Forall (fun i => 0 <= i) idx -> safely sound (copy_s s idx r).
  Proof.
    intros Hr Hi; unfold copy_s. eapply safely_mono; [intros x Hx; refine (like_sound r x _ Hr); exact Hx|].
    apply safely_foldO; [|apply like_refl]. intros a i Hin Ha; apply in_iota in Hin.
    apply (safely_bind (fun _ => True)).
    - destruct (rd_in_range idx i Hin) as (x & -> & E). simpl. apply safe_get_double.
      rewrite Forall_forall in Hi; apply Hi; eapply nth_error_In; exact E.
    - intros x _. eapply safely_mono; [|apply safe_set_double; lia]. intros b; apply like_trans; exact Ha.
  Qed.
  Lemma safe_copy_v (s : Serie T) idx (r : Serie T) : sound s -> sound r -> Forall (fun i => 0 <= i < count_ s) idx -> safely sound (copy_v s idx r).
  Proof.
    intros Hs Hr Hi; unfold copy_v. eapply safely_mono; [intros x Hx; refine (like_sound r x _ Hr); exact Hx|].
    apply safely_foldO; [|apply like_refl]. intros a i Hin Ha; apply in_iota in Hin.
    apply (safely_bind (fun _ => True)).
    - destruct (rd_in_range idx i Hin) as (x & -> & E). simpl. eapply safely_mono; [|apply safe_get_array; [exact Hs|]].
      + auto.
      + rewrite Forall_forall in Hi; apply Hi; eapply nth_error_In; exact E.
    - intros x _. eapply safely_mono; [|apply safe_write; [exact (like_sound r a Ha Hr)|lia]]. intros b; apply like_trans; exact Ha.
  Qed.
  Lemma safe_take (s : Serie T) idx : sound s -> len idx <= count_ s -> Forall (fun i => 0 <= i < count_ s) idx ->
    safely sound (take_s s idx) /\ safely sound (take_v s idx) /\ safely sound (take_any s idx).
  Proof.
    intros Hs Hl Hf; destruct (sound_bounds s Hs) as (B1 & B2 & B3 & B4 & B5 & B6 & B7 & _). pose proof (len_nonneg idx).
    assert (Hf' : Forall (fun i => 0 <= i) idx) by (eapply Forall_impl; [|exact Hf]; intros i Hi; simpl in Hi; lia).
    assert (len idx * itemSize_ s <= count_ s * itemSize_ s) by nia.
    unfold take_any, take_s, take_v; rewrite B7, !(u32_small (len idx)) by lia.
    split; [|split].
    - apply safe_copy_s; [apply sound_n; lia|exact Hf'].
    - apply safe_copy_v; [exact Hs|apply sound_n; lia|exact Hf].
    - destruct (itemSize s =? 1); [apply safe_copy_s; [apply sound_n; lia|exact Hf']|].
      apply safe_copy_v; [exact Hs|apply sound_n; lia|exact Hf].
  Qed.

  Lemma safe_get_a (s : Serie T) : sound s -> forall i, 0 <= i < count_ s -> safely (fun _ => True) (get_array s i).
  Proof. intros Hs i Hi; eapply safely_mono; [|apply safe_get_array; assumption]; auto. Qed.
  Lemma safe_get_d (s : Serie T) : forall i, 0 <= i < count_ s -> safely (fun _ => True) (get_double s i).
  Proof. intros i Hi; apply safe_get_double; lia. Qed.

  (** an item of fixed size *)
  Ltac reads := repeat (apply (safely_bind (fun _ => True)); [apply safely_rd; lia|intros ? _]).

  Theorem C153_unary : forall f, unary f -> forall s, sound s -> safely sound (f s).
  Proof.
    intros f Hf s Hs; destruct (sound_bounds s Hs) as (B1 & B2 & B3 & B4 & B5 & B6 & B7 & B8 & B9 & B10).
    assert (NUM : forall A (get : Z -> outcome A) (cb : A -> Z -> M unit T),
      (forall i, 0 <= i < count_ s -> safely (fun _ => True) (get i)) -> defined cb ->
      safely sound (run (map_num get cb (count s)))).
    { intros A get cb Hg Hc; apply safelyM_run. eapply safelyM_fst.
      apply safe_map_num; [exact B2|]. intros i Hi.
      apply (safelyM_bind (fun _ => True)); [apply safelyM_lift, Hg, Hi|]. intros x _; apply defined_safe; exact Hc. }
    assert (COL : forall A (get : Z -> outcome A) (cb : A -> Z -> M unit bool) b (k : list Z -> outcome (Serie T)),
      (forall i, 0 <= i < count_ s -> safely (fun _ => True) (get i)) -> defined cb ->
      (forall l, len l <= count_ s -> Forall (fun i => 0 <= i < count_ s) l -> safely sound (k l)) ->
      safely sound (run (let! indices := collect get cb b (count s) in lift (k indices)))).
    { intros A get cb b k Hg Hc Hk; apply safelyM_run.
      eapply safelyM_bind; [apply safe_collect; [exact (proj1 B2)|exact Hg|exact Hc]|].
      intros l [Hl Fl]; apply safelyM_lift, Hk; assumption. }
    assert (SET : forall o, safely (like s) o -> safely sound o)
      by (intros o; apply safely_mono; intros r Hr; exact (like_sound s r Hr Hs)).
    assert (ITEM : forall (g : list T -> outcome (list T)),
      (forall v, len v = itemSize_ s -> 1 <= itemSize_ s -> safely (fun r => 1 <= len r <= itemSize_ s) (g v)) ->
      safely sound (run (map_vv (fun v _ => lift (g v)) s))).
    { intros g Hg; apply safelyM_run. eapply safelyM_fst.
      apply (safe_map_vv (fun v _ => lift (g v)) s Hs). intros v i Hv Hi Hk; apply safelyM_lift, Hg; assumption. }
    destruct Hf.
    - destruct s; exact Hs.
    - apply SET, safe_setValue; assumption.
    - apply SET, safe_write; assumption.
    - apply SET, safe_setScalar; assumption.
    - apply SET, safe_set_double; assumption.
    - apply (safe_items (fun _ _ x => Ok (n_mul x (n_of_Z (-1)))) (fun _ => itemSize s) s Hs); [intros v Hv; lia|intros; exact I].
    - apply (safe_items (fun _ _ x => Ok (n_mul x f)) (fun _ => itemSize s) s Hs); [intros v Hv; lia|intros; exact I].
    - unfold scale_array. destruct (Z.eqb_spec (itemSize s) (len l)); [|exact I]. simpl.
      apply (safe_items (fun _ k x => let* f := rd l k in Ok (n_mul x f)) (fun _ => itemSize s) s Hs); [intros v Hv; lia|].
      intros i k x Hi Hk. apply (safely_bind (fun _ => True)); [apply safely_rd; lia|intros; exact I].
    - apply (safe_items (fun _ _ x => Ok (n_mul x d)) (fun v => len v) s Hs); [intros v Hv; lia|intros; exact I].
    - apply (safe_items (fun _ _ x => Ok (n_div x d)) (fun v => len v) s Hs); [intros v Hv; lia|intros; exact I].
    - unfold add_value, shift. destruct (negb (itemSize s =? 1)); [exact I|]. apply NUM; [apply safe_get_d|]. intros x i; discriminate.
    - unfold sub_value, shift. destruct (negb (itemSize s =? 1)); [exact I|]. apply NUM; [apply safe_get_d|]. intros x i; discriminate.
    - unfold inv. destruct (negb (isValid s)); [exact sound_default|].
      destruct (Z.eqb_spec (itemSize s) 6) as [E|E]; [|destruct (Z.eqb_spec (itemSize s) 9) as [E'|E']]; simpl;
        destruct (dimension s =? 3); simpl; try exact sound_default.
      + apply ITEM. intros v Hv Hk; unfold inv6_item. reads.
        match goal with |- safely _ (if ?c then _ else _) => destruct c end; [exact I|]. simpl; unfold len; simpl; lia.
      + apply ITEM. intros v Hv Hk; unfold inv9_item. reads.
        match goal with |- safely _ (if ?c then _ else _) => destruct c end; [exact I|]. simpl; unfold len; simpl; lia.
    - unfold transpose. destruct (Z.eqb_spec (itemSize s) 4) as [E|E]; [|destruct (Z.eqb_spec (itemSize s) 9) as [E'|E']]; simpl;
        [| |exact I].
      + apply ITEM. intros v Hv Hk; unfold transpose4_item. reads. simpl; unfold len; simpl; lia.
      + apply ITEM. intros v Hv Hk; unfold transpose9_item. reads. simpl; unfold len; simpl; lia.
    - unfold fringes. destruct (negb (isValid s)); [exact sound_default|].
      destruct (Z.eqb_spec (itemSize s) 1) as [E|E]; simpl; [|exact sound_default].
      apply (ITEM (fun v => let* x := rd v 0 in Ok [n_abs (n_mul f (frac (n_div x f)))])).
      intros v Hv Hk. reads. simpl; unfold len; simpl; lia.
    - apply NUM; [apply safe_get_d|assumption].
    - apply NUM; [apply safe_get_a; exact Hs|assumption].
    - apply safelyM_run. eapply safelyM_fst.
      apply safe_map_vv; [exact Hs|]. intros v i Hv Hi Hk [].
      assert (Hn : v <> []) by (intros ->; change (len (@nil T)) with 0 in Hv; lia).
      specialize (H0 v i Hn). unfold run in H0. destruct (fst (cb v i tt)) as [r|e|]; [|exact I|contradiction].
      simpl. destruct H0 as [H1 H2]. destruct r as [|y r]; [contradiction|]. rewrite len_cons in *. pose proof (len_nonneg r); lia.
    - apply COL; [apply safe_get_d|assumption|]. intros l Hl Fl; apply (safe_take s l Hs Hl Fl).
    - apply COL; [apply safe_get_a; exact Hs|assumption|]. intros l Hl Fl; apply (safe_take s l Hs Hl Fl).
    - apply COL; [apply safe_get_d|assumption|]. intros l Hl Fl; apply (safe_take s l Hs Hl Fl).
    - apply COL; [apply safe_get_a; exact Hs|assumption|]. intros l Hl Fl; apply (safe_take s l Hs Hl Fl).
    - apply COL; [apply safe_get_d|assumption|]. intros l Hl Fl; apply (safe_take s l Hs Hl Fl).
    - apply COL; [apply safe_get_a; exact Hs|assumption|]. intros l Hl Fl; apply (safe_take s l Hs Hl Fl).
    - apply NUM; [apply safe_get_d|]. intros x i E. apply (H0 x i). unfold run, mbind in *. destruct (cb x i tt) as [[b|e|] []]; simpl in *; congruence.
    - apply NUM; [apply safe_get_a; exact Hs|]. intros x i E. apply (H0 x i). unfold run, mbind in *. destruct (cb x i tt) as [[b|e|] []]; simpl in *; congruence.
  Qed.

  Lemma safe_pointwise op (s1 s2 : Serie T) : sound s1 -> sound s2 -> safely sound (pointwise op s1 s2).
  Proof.
    intros Hs Ht; destruct (sound_bounds s1 Hs) as (B1 & B2 & B3 & B4 & B5 & B6 & B7 & _).
    destruct (sound_bounds s2 Ht) as (_ & _ & _ & _ & _ & C6 & _). unfold pointwise, count.
    destruct (Z.eqb_spec (itemSize s1) (itemSize s2)) as [Ek|]; [|exact I].
    destruct (Z.eqb_spec (count_ s1) (count_ s2)) as [Ec|]; [|exact I]. simpl.
    rewrite B7. assert (Hr : sound (serie_n (T := T) (itemSize_ s1) (count_ s1) 3)) by (apply sound_n; lia).
    eapply safely_mono; [intros x Hx; refine (like_sound _ x _ Hr); exact Hx|].
    apply safely_foldO; [|apply like_refl]. intros a i Hi Ha; apply in_iota in Hi.
    destruct (itemSize s1 =? 1).
    - apply (safely_bind (fun _ => True)); [apply safe_get_double; lia|]. intros x _.
      apply (safely_bind (fun _ => True)); [apply safe_get_double; lia|]. intros y _.
      eapply safely_mono; [|apply safe_set_double; lia]. intros b; apply like_trans; exact Ha.
    - apply (safely_bind (fun v => len v = itemSize_ s1)); [apply safe_get_array; assumption|]. intros v Hv.
      apply (safely_bind (fun v => len v = itemSize_ s2)); [apply safe_get_array; [assumption|lia]|]. intros w Hw.
      eapply (safely_bind (fun _ => True)).
      + eapply safely_mono; [|apply safe_upd_each].
        * auto.
        * rewrite len_replicate by lia; lia.
        * intros k x Hk. apply (safely_bind (fun _ => True)); [apply safely_rd; lia|]. intros y _.
          apply (safely_bind (fun _ => True)); [apply safely_rd; lia|]. intros z _; exact I.
      + intros sum _. eapply safely_mono; [|apply safe_write; [exact (like_sound _ a Ha Hr)|lia]]. intros b; apply like_trans; exact Ha.
  Qed.

  Lemma safe_std_equal p (a b : list T) : len a <= len b -> safely (fun _ => True) (std_equal p a b).
  Proof.
    revert b; induction a as [|x a IH]; intros b Hl; [exact I|].
    destruct b as [|y b]; [rewrite len_cons in Hl; change (len (@nil T)) with 0 in Hl; pose proof (len_nonneg a); lia|].
    simpl; destruct (p x y); [|exact I]. apply IH. rewrite !len_cons in Hl; lia.
  Qed.
  Lemma safe_mask p (s1 s2 : Serie T) : sound s1 -> sound s2 -> safely sound (mask p s1 s2).
  Proof.
    intros Hs Ht; destruct (sound_bounds s1 Hs) as (B1 & B2 & B3 & B4 & B5 & B6 & B7 & _).
    destruct (sound_bounds s2 Ht) as (_ & _ & _ & _ & _ & C6 & _). unfold mask, same_shape, count.
    destruct (isValid s1); [|exact I]. destruct (isValid s2); [|exact I].
    destruct (Z.eqb_spec (itemSize s1) (itemSize s2)) as [Ek|]; [|exact I].
    destruct (Z.eqb_spec (count_ s1) (count_ s2)) as [Ec|]; [|exact I]. simpl.
    assert (Hr : sound (serie_n (T := T) 1 (count_ s1) 3)) by (apply sound_n; lia).
    eapply safely_mono; [intros x Hx; refine (like_sound _ x _ Hr); exact Hx|].
    apply safely_foldO; [|apply like_refl]. intros a i Hi Ha; apply in_iota in Hi.
    destruct (itemSize s1 =? 1).
    - apply (safely_bind (fun _ => True)); [apply safe_scalar; [assumption|lia]|]. intros x _.
      apply (safely_bind (fun _ => True)); [apply safe_scalar; [assumption|lia]|]. intros y _.
      eapply safely_mono; [|apply safe_setScalar; lia]. intros b; apply like_trans; exact Ha.
    - apply (safely_bind (fun v => len v = itemSize_ s1)); [apply safe_value; assumption|]. intros v Hv.
      apply (safely_bind (fun v => len v = itemSize_ s2)); [apply safe_value; [assumption|lia]|]. intros w Hw.
      apply (safely_bind (fun _ => True)); [apply safe_std_equal; lia|]. intros e _.
      eapply safely_mono; [|apply safe_setScalar; lia]. intros b; apply like_trans; exact Ha.
  Qed.
  Lemma safe_mult_serie (s t : Serie T) : sound s -> sound t -> safely sound (mult_serie s t).
  Proof.
    intros Hs Ht; destruct (sound_bounds s Hs) as (B1 & B2 & B3 & B4 & B5 & B6 & B7 & B8 & B9 & B10).
    destruct (sound_bounds t Ht) as (_ & _ & C3 & _ & _ & C6 & _ & _ & C9 & _). unfold mult_serie, count, asArray.
    destruct (Z.eqb_spec (count_ s) (count_ t)) as [Ec|]; [|exact I]. simpl.
    destruct (Z.eqb_spec (itemSize s) 1) as [E1|E1].
    - destruct (Z.eqb_spec (itemSize t) 1) as [E2|E2]; [|exact I]. simpl.
      assert (El : len (s_ s) = len (s_ t)) by lia. pose proof (len_nonneg (s_ s)).
      eapply safely_bind; [apply safe_upd_each|].
      + unfold createArray; rewrite len_replicate by lia; lia.
      + intros k x Hk. reads. exact I.
      + intros l Hl; simpl in Hl. unfold createArray in Hl; rewrite len_replicate in Hl by lia.
        eapply safely_mono; [|apply safe_of; lia]. intros r Hr; exact (proj1 Hr).
    - apply safelyM_run. eapply safelyM_fst. apply safe_map_vv; [exact Hs|]. intros v i Hv Hi Hk.
      destruct (itemSize t =? 1).
      + apply safelyM_lift. apply (safely_bind (fun _ => True)); [apply safe_scalar; [exact Ht|lia]|]. intros d _.
        eapply safely_mono; [|apply safe_upd_each; [pose proof (len_nonneg v); lia|intros; exact I]]. same_length.
      + destruct (Z.eqb_spec (itemSize t) (itemSize s)) as [E|E]; [|apply safelyM_throw]. simpl.
        apply safelyM_lift. apply (safely_bind (fun w => len w = itemSize_ t)); [apply safe_value; [exact Ht|lia]|]. intros w Hw.
        eapply safely_mono; [|apply safe_upd_each; [pose proof (len_nonneg v); lia|]]; [same_length|].
        intros k x Hk'. reads. exact I.
  Qed.

  Theorem C153_binary : forall f, binary f -> forall s t, sound s -> sound t -> safely sound (f s t).
  Proof.
    intros f Hf s t Hs Ht. destruct Hf.
    - destruct t; exact Ht.
    - apply safe_pointwise; assumption.
    - apply safe_pointwise; assumption.
    - apply safe_mult_serie; assumption.
    - unfold div_serie, count. destruct (isValid t); [|exact I]. destruct (isValid s); [|exact I]. simpl.
      destruct (sound_bounds t Ht) as (B1 & B2 & B3 & B4 & B5 & B6 & B7 & B8 & B9 & B10).
      destruct (Z.eqb_spec (count_ s) (count_ t)) as [Ec|]; [|exact I]. simpl.
      destruct (Z.eqb_spec (itemSize s) 1) as [E1|E1]; [|exact I]. simpl.
      destruct (itemSize t =? 1).
      + apply safelyM_run. eapply safelyM_fst. apply safe_map_num; [exact B2|]. intros i Hi.
        apply (safelyM_bind (fun _ => True)); [apply safelyM_lift, safe_get_double; lia|]. intros x _.
        apply (safelyM_bind (fun _ => True)); [apply safelyM_lift, safe_get_double; lia|]. intros y _. apply safelyM_ret; exact I.
      + apply safelyM_run. eapply safelyM_fst. apply safe_map_vv; [exact Ht|]. intros v i Hv Hi Hk.
        apply (safelyM_bind (fun _ => True)); [apply safelyM_lift, safe_get_double; lia|]. intros y _.
        match goal with |- safelyM _ (if ?c then _ else _) => destruct c end.
        * apply safelyM_ret. rewrite len_replicate by lia. lia.
        * apply safelyM_lift. eapply safely_mono; [|apply safe_upd_each].
          -- intros r Hr; simpl in Hr. rewrite len_replicate in Hr by lia. lia.
          -- rewrite len_replicate by lia; lia.
          -- intros k x Hk'. reads. exact I.
    - apply safe_mask; assumption.
    - apply safe_mask; assumption.
  Qed.

  Theorem C153_several : forall f, several f -> forall s ss, Forall sound (s :: ss) -> safely sound (f (s :: ss)).
  Proof.
    intros f Hf s ss Hall. pose proof (Forall_inv Hall) as Hs. pose proof (Forall_inv_tail Hall) as Hss.
    destruct (sound_bounds s Hs) as (B1 & B2 & B3 & B4 & B5 & B6 & B7 & B8 & B9 & B10).
    assert (PL : forall op, safely sound (pointwise_list op (s :: ss))).
    { intros op; unfold pointwise_list, count.
      match goal with |- context [forallb ?g ss] => destruct (forallb g ss) eqn:E end; [|exact I].
      rewrite forallb_forall in E. apply safelyM_run. eapply safelyM_fst. apply safe_map_vv; [exact Hs|].
      intros v i Hv Hi Hk. apply safelyM_lift. eapply safely_mono; [|apply (safely_foldO (fun r => len r = len v)); [|reflexivity]];
        [same_length|].
      intros a t Ht Ha. rewrite Forall_forall in Hss. pose proof (Hss t Ht) as Hsnd.
      destruct (sound_bounds t Hsnd) as (_ & _ & _ & _ & _ & C6 & _).
      specialize (E t Ht). apply andb_true_iff in E as [E1 E2]. apply Z.eqb_eq in E1, E2.
      eapply safely_mono; [|apply safe_upd_each; [lia|]]; [same_length|]. intros k x Hk'.
      apply (safely_bind (fun w => len w = itemSize_ t)); [apply safe_value; [exact Hsnd|lia]|]. intros w Hw. reads. exact I. }
    destruct Hf.
    - apply PL.
    - apply PL.
    - unfold weigthedSum. destruct (Z.eqb_spec (len (s :: ss)) (len w)) as [El|]; [|exact I].
      unfold negb. unfold count.
      match goal with |- context [forallb ?g ?l] => destruct (forallb g l) eqn:E end; [|exact I].
      rewrite forallb_forall in E. apply safelyM_run. eapply safelyM_fst. apply safe_map_vv; [exact Hs|].
      intros v i Hv Hi Hk. apply safelyM_lift.
      eapply safely_mono; [|apply (safely_foldO (fun r => len r = itemSize_ s))]; [same_length| |unfold createArray; rewrite len_replicate; lia].
      intros a j Hj Ha. apply in_iota in Hj. destruct (rd_in_range (s :: ss) j Hj) as (t & -> & Et). simpl.
      apply nth_error_In in Et. rewrite Forall_forall in Hall. pose proof (Hall t Et) as Hsnd.
      destruct (sound_bounds t Hsnd) as (_ & _ & _ & _ & _ & C6 & _).
      specialize (E t Et). apply andb_true_iff in E as [E1 E2]. apply Z.eqb_eq in E1, E2.
      apply (safely_bind (fun w => len w = itemSize_ t)); [apply safe_value; [exact Hsnd|lia]|]. intros u Hu.
      apply (safely_bind (fun _ => True)); [apply safely_rd; lia|]. intros c _.
      eapply safely_mono; [|apply safe_upd_each; [lia|]]; [same_length|]. intros k x Hk'. reads. exact I.
    - assert (Hn : sound (serie_n (T := T) (s32 (itemSize s)) (count s) 3)) by (unfold count; rewrite B7; apply sound_n; lia).
      assert (F : safely sound (foldO (fun result t => let* r := add result t in Ok (serie_assign result r)) (s :: ss)
                                  (serie_n (s32 (itemSize s)) (count s) 3))).
      { apply safely_foldO; [|exact Hn]. intros a t Ht Ha. rewrite Forall_forall in Hall.
        apply (safely_bind sound); [apply safe_pointwise; [exact Ha|apply Hall, Ht]|]. intros r Hr; destruct r; exact Hr. }
      assert (C : forall l : list (Serie T), safely sound (let* _ := countAndCheck (s :: l) in
               foldO (fun result t => let* r := add result t in Ok (serie_assign result r)) (s :: ss) (serie_n (s32 (itemSize s)) (count s) 3))).
      { intros l. apply (safely_bind (fun _ => True)); [|intros _ _; exact F]. unfold countAndCheck.
        match goal with |- context [forallb ?g ?l] => destruct (forallb g l) end; exact I. }
      unfold add_variadic. destruct ss as [|t [|u ss]].
      + apply C.
      + apply safe_pointwise; [exact Hs|exact (Forall_inv Hss)].
      + apply C.
  Qed.

  (** loops whose callback changes a state, with an invariant of the state *)
  Lemma safe_loop {St A B} (J : St -> Prop) (f : A -> M St B) l st :
    (forall x st, In x l -> J st -> match f x st with (Ok _, st') => J st' | (Throw _, _) => True | (UB, _) => False end) ->
    J st -> match mapM f l st with (Ok _, st') => J st' | (Throw _, _) => True | (UB, _) => False end.
  Proof.
    revert st; induction l as [|x l IH]; intros st Hf Hj; [exact Hj|].
    simpl; unfold mbind. pose proof (Hf x st (or_introl eq_refl) Hj) as Hx.
    destruct (f x st) as [[b|e|] st1]; [|exact Hx|exact Hx].
    assert (Hl : match mapM f l st1 with (Ok _, st') => J st' | (Throw _, _) => True | (UB, _) => False end)
      by (apply IH; [intros y st2 Hy; apply Hf; right; exact Hy|exact Hx]).
    destruct (mapM f l st1) as [[bs|e|] st2]; exact Hl.
  Qed.

  Lemma safe_minMax (s : Serie T) : sound s -> safely (fun _ => True) (minMax s).
  Proof.
    intros Hs; destruct (sound_bounds s Hs) as (B1 & B2 & _). unfold minMax, count.
    destruct (isValid s); [|exact I]. simpl. destruct (Z.eqb_spec (count_ s) 0); [exact I|].
    destruct (itemSize s =? 1).
    - apply (safely_bind (fun _ => True)); [|intros; exact I]. apply safely_foldO; [|exact I]. intros mm i Hi _; apply in_iota in Hi.
      apply (safely_bind (fun _ => True)); [apply safe_get_double; lia|intros; exact I].
    - apply (safely_bind (fun v => len v = itemSize_ s)); [apply safe_get_array; [exact Hs|lia]|]. intros first Hf.
      eapply safely_mono; [|apply (safely_foldO (fun mm => len (fst mm) = itemSize_ s /\ len (snd mm) = itemSize_ s))].
      + auto.
      + intros mm i Hi Hmm. assert (Hi' : 0 <= i < count_ s).
        { unfold iota_from in Hi. apply in_map_iff in Hi as (m & <- & Hm). apply in_seq in Hm. lia. }
        apply (safely_bind (fun v => len v = itemSize_ s)); [apply safe_get_array; assumption|]. intros v Hv.
        apply safely_foldO; [|exact Hmm]. intros a j Hj [Ha1 Ha2]; apply in_iota in Hj.
        apply (safely_bind (fun _ => True)); [apply safely_rd; lia|]. intros x _.
        apply (safely_bind (fun _ => True)); [apply safely_rd; lia|]. intros lo _.
        apply (safely_bind (fun _ => True)); [apply safely_rd; lia|]. intros hi _.
        eapply safely_bind; [apply safely_wr; lia|]. intros mn Hmn.
        eapply safely_bind; [apply safely_wr; lia|]. intros mx Hmx. simpl in *; lia.
      + simpl; split; assumption.
  Qed.

  Lemma safe_reduce (cb : T -> T -> Z -> M unit T) (s : Serie T) x :
    (forall a b i, run (cb a b i) <> UB) -> safely (fun _ => True) (run (reduce_s cb s x)).
  Proof.
    intros Hc; apply safelyM_run. unfold reduce_s. apply safelyM_foldM; [|exact I]. intros a i Hi _; apply in_iota in Hi.
    apply (safelyM_bind (fun _ => True)); [apply safelyM_lift, safe_get_double; lia|]. intros y _ []. apply safely_any; exact (Hc a y i).
  Qed.

  Lemma safe_mean (s : Serie T) : sound s ->
    safely (fun t => itemSize_ s = 1 -> exists x, t = Number x) (mean s).
  Proof.
    intros Hs; destruct (sound_bounds s Hs) as (B1 & B2 & _ & _ & _ & B6 & _). unfold mean.
    destruct (Z.eqb_spec (itemSize s) 1) as [E|E].
    - apply (safely_bind (fun _ => True)); [apply safe_reduce; intros; discriminate|].
      intros t _; simpl; intros _; exists (n_div t (n_of_Z (count s))); reflexivity.
    - unfold forEach_v. destruct (Z.eqb_spec (itemSize s) 1) as [|_]; [contradiction|].
      unfold each, mbind at 1.
      pose proof (safe_loop (fun b : list T => len b = itemSize_ s)
        (fun i => let! x := lift (get_array s i) in accumulate x i) (iota (count s)) (createArray (itemSize s) (n_of_Z 0))) as L.
      destruct (mapM (fun i => let! x := lift (get_array s i) in accumulate x i) (iota (count s)) (createArray (itemSize s) (n_of_Z 0)))
        as [[u|e|] b].
      + simpl; intros E1; lia.
      + exact I.
      + exfalso; apply L.
        * intros i b0 Hi Hb; apply in_iota in Hi. unfold mbind, lift.
          pose proof (safe_get_array s i Hs Hi) as Hg. destruct (get_array s i) as [v|e|]; [|exact I|exact Hg]. simpl in Hg.
          unfold accumulate. pose proof (safe_upd_each (len v) (fun j x => let* y := rd v j in Ok (n_add x y)) b0) as U.
          destruct (upd_each (len v) _ b0) as [b'|e|] eqn:Eu; [|exact I|]; simpl in U.
          -- rewrite U; [exact Hb|pose proof (len_nonneg v); lia|]. intros k x Hk; reads; exact I.
          -- apply U; [pose proof (len_nonneg v); lia|]. intros k x Hk; reads; exact I.
        * unfold createArray; rewrite len_replicate; lia.
  Qed.

  Lemma safe_collect2 {A} (get : Z -> outcome A) (cb : A -> Z -> M unit bool) n : 0 <= n ->
    (forall i, 0 <= i < n -> safely (fun _ => True) (get i)) -> defined cb ->
    safelyM (fun p => (len (fst p) <= n /\ Forall (fun i => 0 <= i < n) (fst p)) /\ (len (snd p) <= n /\ Forall (fun i => 0 <= i < n) (snd p)))
      (collect2 get cb n).
  Proof.
    intros Hn Hg Hc; unfold collect2.
    assert (G : forall l acc, (forall i, In i l -> 0 <= i < n) -> Forall (fun i => 0 <= i < n) (fst acc) -> Forall (fun i => 0 <= i < n) (snd acc) ->
      safelyM (fun r => (len (fst r) <= len (fst acc) + len l /\ Forall (fun i => 0 <= i < n) (fst r)) /\
                        (len (snd r) <= len (snd acc) + len l /\ Forall (fun i => 0 <= i < n) (snd r)))
        (foldM (fun (acc : list Z * list Z) i => let! x := lift (get i) in let! b := cb x i in
             ret (if b then (fst acc ++ [i], snd acc) else (fst acc, snd acc ++ [i]))) l acc : M unit (list Z * list Z))).
    { induction l as [|i l IH]; intros acc Hl Ha Hb.
      - apply safelyM_ret; change (len (@nil Z)) with 0; repeat split; try lia; assumption.
      - simpl. apply (safelyM_bind (fun r => (len (fst r) <= len (fst acc) + 1 /\ Forall (fun i => 0 <= i < n) (fst r)) /\
                        (len (snd r) <= len (snd acc) + 1 /\ Forall (fun i => 0 <= i < n) (snd r)))).
        + apply (safelyM_bind (fun _ => True)); [apply safelyM_lift, Hg, Hl; left; reflexivity|]. intros x _.
          apply (safelyM_bind (fun _ => True)); [apply defined_safe; exact Hc|]. intros y _.
          assert (Hi : Forall (fun i => 0 <= i < n) [i]) by (constructor; [apply Hl; left; reflexivity|constructor]).
          apply safelyM_ret; destruct y; simpl; rewrite len_app; change (len [i]) with 1;
            repeat split; try lia; try assumption; apply Forall_app; split; assumption.
        + intros r ((Hr & Fr) & Hr' & Fr'); eapply safelyM_mono; [|apply IH; [intros j Hj; apply Hl; right; exact Hj|exact Fr|exact Fr']].
          intros q ((Hq & Fq) & Hq' & Fq'); rewrite len_cons; repeat split; try lia; assumption. }
    eapply safelyM_mono; [|apply G; [intros i Hi; apply in_iota in Hi; exact Hi|constructor|constructor]].
    intros r Hr; rewrite len_iota in Hr by lia; exact Hr.
  Qed.

  Lemma safe_find {A} (get : Z -> outcome A) (cb : A -> Z -> M unit bool) none n :
    (forall i, 0 <= i < n -> safely (fun _ => True) (get i)) -> defined cb ->
    safelyM (fun _ => True) (find_loop get cb none (iota n)).
  Proof.
    intros Hg Hc. assert (G : forall l, (forall i, In i l -> 0 <= i < n) -> safelyM (fun _ => True) (find_loop get cb none l)).
    { induction l as [|i l IH]; intros Hl; [apply safelyM_ret; exact I|]. simpl.
      apply (safelyM_bind (fun _ => True)); [apply safelyM_lift, Hg, Hl; left; reflexivity|]. intros x _.
      apply (safelyM_bind (fun _ => True)); [apply defined_safe; exact Hc|]. intros [] _; [apply safelyM_ret; exact I|].
      apply IH; intros j Hj; apply Hl; right; exact Hj. }
    apply G; intros i Hi; apply in_iota in Hi; exact Hi.
  Qed.

  Lemma safe_print (s : Serie T) : sound s -> safely (fun _ => True) (print s).
  Proof.
    intros Hs; destruct (sound_bounds s Hs) as (B1 & B2 & _ & _ & B5 & B6 & _).
    assert (P : forall i, 0 <= i < count_ s -> safely (fun _ => True) (print_item s i)).
    { intros i Hi; unfold print_item. destruct (itemSize s =? 1).
      - apply (safely_bind (fun _ => True)); [apply safe_get_double; lia|intros; exact I].
      - apply (safely_bind (fun v => len v = itemSize_ s)); [apply safe_get_array; assumption|]. intros v Hv.
        assert (itemSize_ s <> 0) by (intros E; apply B5 in E; lia).
        unfold print_array. rewrite u64_small by lia.
        eapply safely_bind; [apply (safely_mapO (fun _ => True))|].
        + intros j Hj; apply in_iota in Hj. apply (safely_bind (fun _ => True)); [apply safely_rd; lia|intros; exact I].
        + intros f _. apply (safely_bind (fun _ => True)); [apply safely_rd; lia|intros; exact I]. }
    unfold print, count. apply (safely_bind (fun _ => True)); [|intros; exact I].
    destruct (Z.ltb_spec 0 (count_ s)); [|exact I]. rewrite u32_small by lia.
    eapply safely_bind; [apply (safely_mapO (fun _ => True))|].
    - intros i Hi; apply in_iota in Hi. apply (safely_bind (fun _ => True)); [apply P; lia|intros; exact I].
    - intros l _. apply (safely_bind (fun _ => True)); [apply P; lia|intros; exact I].
  Qed.

  Lemma safe_sub_value (s : Serie T) v : sound s ->
    safely (fun r => sound r /\ itemSize_ r = 1 /\ count_ r = count_ s) (sub_value s v).
  Proof.
    intros Hs; destruct (sound_bounds s Hs) as (B1 & B2 & _). unfold sub_value, shift.
    destruct (negb (itemSize s =? 1)); [exact I|]. apply safelyM_run. apply safe_map_num; [exact B2|]. intros i Hi.
    apply (safelyM_bind (fun _ => True)); [apply safelyM_lift, safe_get_double; lia|]. intros x _; apply safelyM_ret; exact I.
  Qed.

  Theorem C153_reader : forall R (f : Serie T -> outcome R), reader R f -> forall s, sound s -> f s <> UB.
  Proof.
    intros R f Hf s Hs. apply (safely_ub (fun _ => True)).
    destruct (sound_bounds s Hs) as (B1 & B2 & B3 & B4 & B5 & B6 & B7 & B8 & B9 & B10).
    assert (EACH : forall A (get : Z -> outcome A) (cb : A -> Z -> M unit unit),
      (forall i, 0 <= i < count_ s -> safely (fun _ => True) (get i)) -> defined cb ->
      safely (fun _ => True) (run (let! _ := each get cb (count s) in ret tt))).
    { intros A get cb Hg Hc; apply safelyM_run. eapply safelyM_bind; [|intros a _; apply safelyM_ret; exact I].
      apply (safelyM_mapM (fun _ => True)). intros i Hi; apply in_iota in Hi.
      apply (safelyM_bind (fun _ => True)); [apply safelyM_lift, Hg, Hi|]. intros x _; apply defined_safe; exact Hc. }
    destruct Hf as [| |cb Hc|cb Hc|cb Hc|cb Hc|cb Hc|cb Hc|cb x Hc| |t Ht].
    - apply safe_minMax; exact Hs.
    - eapply safely_mono; [|apply safe_mean; exact Hs]; auto.
    - unfold partition_s. destruct (negb (itemSize s =? 1)); [exact I|]. apply safelyM_run.
      eapply safelyM_bind; [apply safe_collect2; [exact (proj1 B2)|apply safe_get_d|exact Hc]|].
      intros p ((P1 & P2) & P3 & P4).
      apply (safelyM_bind sound); [apply safelyM_lift, (safe_take s (fst p) Hs P1 P2)|]. intros a _.
      apply (safelyM_bind sound); [apply safelyM_lift, (safe_take s (snd p) Hs P3 P4)|]. intros b _. apply safelyM_ret; exact I.
    - unfold partition_v. apply safelyM_run.
      eapply safelyM_bind; [apply safe_collect2; [exact (proj1 B2)|apply safe_get_a; exact Hs|exact Hc]|].
      intros p ((P1 & P2) & P3 & P4).
      apply (safelyM_bind sound); [apply safelyM_lift, (safe_take s (fst p) Hs P1 P2)|]. intros a _.
      apply (safelyM_bind sound); [apply safelyM_lift, (safe_take s (snd p) Hs P3 P4)|]. intros b _. apply safelyM_ret; exact I.
    - unfold find_s. destruct (negb (itemSize s =? 1)); [exact I|]. apply safelyM_run, safe_find; [apply safe_get_d|exact Hc].
    - unfold find_v. destruct (itemSize s =? 1); [exact I|]. apply safelyM_run, safe_find; [apply safe_get_a; exact Hs|exact Hc].
    - unfold forEach_s. destruct (negb (itemSize s =? 1)); [exact I|]. apply EACH; [apply safe_get_d|exact Hc].
    - unfold forEach_v. destruct (itemSize s =? 1); [exact I|]. apply EACH; [apply safe_get_a; exact Hs|exact Hc].
    - apply safe_reduce; exact Hc.
    - apply safe_print; exact Hs.
    - destruct (sound_bounds t Ht) as (_ & _ & _ & _ & _ & C6 & _). unfold covariance.
      destruct (count t =? count s); [|exact I]. simpl.
      destruct (Z.eqb_spec (itemSize t) 1) as [E1|]; [|exact I]. simpl.
      destruct (Z.eqb_spec (itemSize s) 1) as [E2|]; [|exact I]. simpl.
      eapply safely_bind; [apply safe_mean; exact Ht|]. intros mx Hx. destruct Hx as [xb ->]; [lia|]. simpl.
      eapply safely_bind; [apply safe_mean; exact Hs|]. intros my Hy. destruct Hy as [yb ->]; [lia|]. simpl.
      eapply safely_bind; [apply safe_sub_value; exact Ht|]. intros dx (D1 & _).
      eapply safely_bind; [apply safe_sub_value; exact Hs|]. intros dy (D2 & _).
      apply (safely_bind sound); [apply safe_mult_serie; assumption|]. intros p _. apply safe_reduce; intros; discriminate.
  Qed.

  (** the constructors *)
  Theorem C153_constructors :
    sound (T := T) serie_default /\
    (forall k n d, 1 <= k < 2147483648 -> 0 <= n -> n * k < 4294967296 -> sound (T := T) (serie_n k n d)) /\
    (forall k (l : list T), 1 <= k < 2147483648 -> len l < 4294967296 -> safely sound (serie_of k l 3)).
  Proof.
    split; [exact sound_default|split].
    - intros k n d Hk Hn Hl; apply sound_n; lia.
    - intros k l Hk Hl; eapply safely_mono; [|apply safe_of; assumption]. intros s Hs; exact (proj1 Hs).
  Qed.

  (** ** Programs: nested calls on given Series *)
  Inductive program : Type :=
  | Given (s : Serie T)
  | Call1 (f : Serie T -> outcome (Serie T)) (p : program)
  | Call2 (f : Serie T -> Serie T -> outcome (Serie T)) (p q : program)
  | Let (p : program) (body : Serie T -> program).
  Fixpoint result (p : program) : outcome (Serie T) :=
    match p with
    | Given s => Ok s
    | Call1 f p => let* s := result p in f s
    | Call2 f p q => let* s := result p in let* t := result q in f s t
    | Let p body => let* s := result p in result (body s)
    end.
  Inductive written : program -> Prop :=
  | w_given s : sound s -> written (Given s)
  | w_call1 f p : unary f -> written p -> written (Call1 f p)
  | w_call2 f p q : binary f -> written p -> written q -> written (Call2 f p q)
  | w_let p body : written p -> (forall s, sound s -> written (body s)) -> written (Let p body).

  Theorem C153_programs : forall p, written p -> result p <> UB.
  Proof.
    intros p Hp; apply (safely_ub sound).
    induction Hp as [s Hs|f p Hf Hp IH|f p q Hf Hp IHp Hq IHq|p body Hp IHp Hb IHb]; simpl.
    - exact Hs.
    - apply (safely_bind sound); [exact IH|apply C153_unary; exact Hf].
    - apply (safely_bind sound); [exact IHp|]. intros s Hs. apply (safely_bind sound); [exact IHq|].
      intros t Ht; apply C153_binary; assumption.
    - apply (safely_bind sound); [exact IHp|]. intros s Hs; apply IHb; exact Hs.
  Qed.
End Calls.

Section Joins.
  Context {T : Type} `{Num T}.

  Lemma safe_put (s r : Serie T) i idx : sound s -> sound r -> 0 <= i < count_ s -> 0 <= idx ->
    safely (fun st => like r (fst st) /\ 0 <= snd st) (put_next s i (r, idx)).
  Proof.
    intros Hs Hr Hi Hx; unfold put_next.
    eapply safely_bind; [apply safe_get_array; assumption|]. intros v _. simpl.
    eapply safely_bind; [apply safe_write; assumption|]. intros r' Hl; split; [exact Hl|].
    change (0 <= u32 (idx + 1)). pose proof (u32_range (idx + 1)); lia.
  Qed.
  Definition joining (r : Serie T) (st : Serie T * Z) : Prop := like r (fst st) /\ 0 <= snd st.
  Lemma safe_put' (s r : Serie T) i st : sound s -> sound r -> 0 <= i < count_ s -> joining r st ->
    safely (joining r) (put_next s i st).
  Proof.
    intros Hs Hr Hi [Hl Hx]; destruct st as [r' idx]; simpl in *.
    eapply safely_mono; [|apply safe_put; [exact Hs|exact (like_sound r r' Hl Hr)|exact Hi|exact Hx]].
    intros st [A B]; split; [exact (like_trans r r' (fst st) Hl A)|exact B].
  Qed.
  Lemma safe_put_all (s r : Serie T) st : sound s -> sound r -> joining r st -> safely (joining r) (put_next_all s st).
  Proof.
    intros Hs Hr Hj; unfold put_next_all; apply safely_foldO; [|exact Hj].
    intros a i Hi Ha; apply in_iota in Hi. apply safe_put'; assumption.
  Qed.
  Lemma safe_put_if (s r : Serie T) i st : sound s -> sound r -> 0 <= i -> joining r st -> safely (joining r) (put_next_if s i st).
  Proof.
    intros Hs Hr Hi Hj; unfold put_next_if, count. destruct (Z.ltb_spec i (count_ s)); [|exact Hj].
    apply safe_put'; try assumption; lia.
  Qed.
  Lemma joining_start (r : Serie T) : joining r (r, 0).
  Proof. split; [apply like_refl|simpl; lia]. Qed.

  (** how many numbers the Series hold *)
  Definition numbers (ss : list (Serie T)) : Z := fold_right Z.add 0 (map (fun s => len (s_ s)) ss).

  Lemma numbers_nonneg ss : 0 <= numbers ss.
  Proof. unfold numbers; induction ss as [|s ss IH]; simpl; [lia|]; pose proof (len_nonneg (s_ s)); lia. Qed.
  Lemma numbers_counts k ss : Forall sound ss -> (forall s, In s ss -> itemSize s = k) ->
    0 <= fold_right Z.add 0 (map count ss) /\ fold_right Z.add 0 (map count ss) * k <= numbers ss /\
    fold_right Z.add 0 (map count ss) <= numbers ss /\ (k = 0 -> fold_right Z.add 0 (map count ss) = 0).
  Proof.
    induction ss as [|s ss IH]; intros Hs Hk; [unfold numbers; simpl; lia|].
    destruct IH as (A & B & C & D); [exact (Forall_inv_tail Hs)|intros t Ht; apply Hk; right; exact Ht|].
    destruct (sound_bounds s (Forall_inv Hs)) as (B1 & B2 & B3 & B4 & B5 & B6 & _ & _ & _ & B10).
    pose proof (Hk s (or_introl eq_refl)) as Ek. unfold numbers in *; simpl. unfold count at 1 3 5 7.
    assert (itemSize_ s = k) as E by lia. rewrite E in *. repeat split; try lia. 
  Qed.

  Lemma all_equal_head (l : list Z) x : all_equal (x :: l) = true -> forall y, In y l -> y = x.
  Proof.
    revert x; induction l as [|z l IH]; intros x E y Hy; [destruct Hy|].
    change ((z =? x) && all_equal (z :: l) = true) in E. apply andb_true_iff in E as [E1 E2]. apply Z.eqb_eq in E1.
    destruct Hy as [<-|Hy]; [exact E1|]. rewrite <- E1. apply IH; assumption.
  Qed.

  Lemma concat_check_total (ss : list (Serie T)) k t : Forall sound ss -> 0 <= t -> t + numbers ss < 4294967296 ->
    safely (fun n => n = t + fold_right Z.add 0 (map count ss) /\ (forall s, In s ss -> itemSize s = k))
      (foldO (fun totalCount s => if negb (isValid s) || negb (itemSize s =? k) then Throw InvalidArgument
                                  else Ok (u32 (totalCount + count s))) ss t).
  Proof.
    revert t; induction ss as [|s ss IH]; intros t Hs Ht Hn; [simpl; split; [lia|intros s []]|].
    destruct (sound_bounds s (Forall_inv Hs)) as (B1 & B2 & B3 & B4 & B5 & B6 & _ & _ & _ & B10).
    pose proof (numbers_nonneg ss). unfold numbers in *; simpl in Hn |- *.
    destruct (isValid s); [|exact I]. simpl. destruct (Z.eqb_spec (itemSize s) k) as [E|]; [|exact I]. simpl.
    change (count s) with (count_ s). rewrite (u32_small (t + count_ s)) by lia.
    eapply safely_mono; [|apply IH; [exact (Forall_inv_tail Hs)|lia|lia]].
    intros n [A B]; split; [lia|]. intros u [<-|Hu]; [exact E|apply B, Hu].
  Qed.

  Theorem C153_joins : forall ss : list (Serie T), Forall sound ss -> ss <> [] -> numbers ss < 4294967296 ->
    safely sound (concat_series ss) /\
    (forall b, safely sound (mergeN b ss)) /\
    (forall s t b, ss = [s; t] -> safely sound (merge2 s t b)).
  Proof.
    intros ss Hs Hne Hn.
    assert (N : forall k, (forall s, In s ss -> itemSize s = k) ->
      sound (serie_n (T := T) (s32 k) (u32 (fold_right Z.add 0 (map count ss))) 3)).
    { intros k Hk. destruct (numbers_counts k ss Hs Hk) as (A & B & C & D).
      destruct ss as [|s0 ss]; [contradiction|].
      destruct (sound_bounds s0 (Forall_inv Hs)) as (B1 & _ & _ & _ & _ & B6 & B7 & _).
      rewrite <- (Hk s0 (or_introl eq_refl)), B7. rewrite u32_small by lia.
      pose proof (Hk s0 (or_introl eq_refl)). apply sound_n; try lia. }
    split; [|split].
    - unfold concat_series. destruct ss as [|s0 ss]; [exact I|]. unfold concat_check.
      eapply safely_bind; [apply concat_check_total; [exact Hs|lia|lia]|]. intros n [En Hk]. rewrite Z.add_0_l in En. simpl in En.
      destruct (numbers_counts (itemSize s0) (s0 :: ss) Hs Hk) as (A & _ & C & _). simpl in A, C.
      pose proof (N (itemSize s0) Hk) as Hr. rewrite u32_small in Hr by (simpl; lia). simpl in Hr. rewrite <- En in Hr.
      apply (safely_bind (joining (serie_n (s32 (itemSize s0)) n 3))).
      + apply safely_foldO; [|apply joining_start]. intros a t Ht Ha. rewrite Forall_forall in Hs. apply safe_put_all; auto.
      + intros st [Hl _]; exact (like_sound _ _ Hl Hr).
    - intros b; unfold mergeN. destruct ss as [|s0 ss]; [contradiction|].
      destruct (all_equal (map itemSize (s0 :: ss))) eqn:E; [|exact I]. unfold negb.
      assert (Hk : forall s, In s (s0 :: ss) -> itemSize s = itemSize s0).
      { intros s [<-|Hi]; [reflexivity|]. apply (all_equal_head _ _ E), in_map, Hi. }
      pose proof (N (itemSize s0) Hk) as Hr. set (r := serie_n (s32 (itemSize s0)) _ 3) in *.
      apply (safely_bind (joining r)); [|intros st [Hl _]; exact (like_sound _ _ Hl Hr)].
      rewrite Forall_forall in Hs. destruct b.
      + apply safely_foldO; [|apply joining_start]. intros a t Ht Ha; apply safe_put_all; auto.
      + apply safely_foldO; [|apply joining_start]. intros a i Hi Ha. apply in_iota in Hi.
        apply safely_foldO; [|exact Ha]. intros c t Ht Hc; apply safe_put_if; auto; lia.
    - intros s t b Ess; subst ss. unfold merge2. destruct (Z.eqb_spec (itemSize s) (itemSize t)) as [E|]; [|exact I]. unfold negb.
      assert (Hk : forall u, In u [s; t] -> itemSize u = itemSize s) by (intros u [<-|[<-|[]]]; congruence).
      pose proof (N (itemSize s) Hk) as Hr. simpl in Hr. rewrite Z.add_0_r in Hr.
      set (r := serie_n (s32 (itemSize s)) _ 3) in *.
      pose proof (Forall_inv Hs) as H1. pose proof (Forall_inv (Forall_inv_tail Hs)) as H2.
      apply (safely_bind (joining r)); [|intros st [Hl _]; exact (like_sound _ _ Hl Hr)]. destruct b.
      + apply (safely_bind (joining r)); [apply safe_put_all; auto; apply joining_start|]. intros st Hst; apply safe_put_all; auto.
      + apply safely_foldO; [|apply joining_start]. intros a i Hi Ha. apply in_iota in Hi.
        apply (safely_bind (joining r)); [apply safe_put_if; auto; lia|]. intros st Hst; apply safe_put_if; auto; lia.
  Qed.

  Lemma safe_zip_copy n (s r : Serie T) ix : sound s -> n <= count_ s -> safely (fun _ => True) (zip_copy n s ix r).
  Proof.
    intros Hs Hn; unfold zip_copy; apply safely_foldO; [|exact I]. intros a i Hi _; apply in_iota in Hi.
    destruct (sound_bounds s Hs) as (B1 & _ & _ & _ & _ & B6 & _).
    assert (U : forall x, 0 <= u32 x) by (intros x; pose proof (u32_range x); lia).
    destruct (itemSize s =? 1).
    - apply (safely_bind (fun _ => True)); [apply safe_scalar; [exact Hs|lia]|]. intros x _.
      eapply safely_mono; [|apply safe_setScalar, U]; auto.
    - apply (safely_bind (fun v => len v = itemSize_ s)); [apply safe_value; [exact Hs|lia]|]. intros v Hv.
      apply safely_foldO; [|exact I]. intros b j Hj _; apply in_iota in Hj.
      apply (safely_bind (fun _ => True)); [apply safely_rd; lia|]. intros x _.
      eapply safely_mono; [|apply safe_setScalar, U]; auto.
  Qed.

  Theorem C153_zip : forall ss : list (Serie T), Forall sound ss -> ss <> [] -> zip_series ss <> UB /\ zipVector ss <> UB.
  Proof.
    intros ss Hs Hne.
    assert (G : forall (bound : Z -> Serie T -> Z) r0,
      (forall n s, bound n s = n \/ bound n s = count_ s) ->
      safely (fun _ => True) (let* n := countAndCheck ss in
        let* st := foldO (fun (st : Serie T * Z) s =>
                 let* r := zip_copy (bound n s) s (snd st) (fst st) in Ok (r, u32 (snd st + itemSize s))) ss (r0 n, 0) in
        Ok (fst st))).
    { intros bound r0 Hb. unfold countAndCheck. destruct ss as [|s0 ss]; [contradiction|].
      destruct (forallb (fun s => count s =? count s0) ss) eqn:E; [|exact I]. cbn [obind].
      apply (safely_bind (fun _ => True)); [|intros; exact I]. apply safely_foldO; [|exact I]. intros st s Hi _.
      apply (safely_bind (fun _ => True)); [|intros; exact I].
      rewrite Forall_forall in Hs. apply safe_zip_copy; [apply Hs, Hi|].
      rewrite forallb_forall in E. assert (count_ s = count_ s0) by (destruct Hi as [<-|Hi]; [reflexivity|apply Z.eqb_eq, (E s Hi)]).
      destruct (Hb (count s0) s) as [-> | ->]; unfold count; lia. }
    split; apply (safely_ub (fun _ => True)).
    - unfold zip_series. destruct (negb (forallb isValid ss)); [exact I|].
      apply (G (fun _ s => count_ s) (fun n => serie_n (s32 (u32 (fold_right Z.add 0 (map itemSize ss)))) n 3)). auto.
    - unfold zipVector. destruct ss as [|s0 ss]; [contradiction|]. destruct (negb (forallb isValid (s0 :: ss))); [exact I|].
      apply (G (fun n _ => n) (fun n => serie_n (s32 (u32 (fold_right Z.add 0 (map itemSize (s0 :: ss))))) n 3)). auto.
  Qed.

  Theorem C153_clone : forall s : Serie T, sound s ->
    (isValid s = true -> safely sound (clone s)) /\ (isValid s = false -> clone s = UB).
  Proof.
    intros s Hs; unfold isValid, clone; split; intros E.
    - apply Z.ltb_lt in E. destruct (sound_bounds s Hs) as (B1 & _ & _ & B4 & _).
      eapply safely_mono; [|apply safe_of; lia]. intros r Hr; exact (proj1 Hr).
    - apply Z.ltb_ge in E. destruct (sound_bounds s Hs) as (B1 & _). unfold serie_of.
      replace (itemSize_ s) with 0 by lia. reflexivity.
  Qed.

  (** Functions that are left out because they are undefined for some sound Series. *)
  Theorem C153_left_out : forall (x y z : T),
    let one := mk 1 [[x]] 3 in let pair := mk 2 [[x; y]] 3 in let pairs := mk 2 [[x; y]; [y; z]] 3 in
    let triple := mk 3 [[x; y; z]] 3 in let triples := mk 3 [[x; y; z]; [z; y; x]] 3 in
    let sym := mk 3 [[x; y; z]] 2 in let none := mk 1 [] 3 in
    Forall sound [one; pair; pairs; triple; triples; sym; none] /\
    clone (T := T) serie_default = UB /\ det sym = UB /\ norm2 pairs = UB /\ norm pairs = UB /\
    dot pair one = UB /\ dot pairs pair = UB /\ dot_array none [x] = UB /\ cross triples triple = UB /\
    normalize none = UB /\ bins none 2 = UB /\ print_array (T := T) [] = UB /\
    run (map_vv (fun _ _ => ret []) one) = UB /\ run (reduce_v (fun _ _ _ => ret []) one [x]) = UB /\
    run (map_n_s (fun _ _ => ret x) [none; none]) = UB /\ partition_n 0 one = UB /\ add_list (T := T) [] = UB.
  Proof.
    intros x y z one pair pairs triple triples sym none.
    split.
    - subst one pair pairs triple triples sym none. repeat (apply Forall_cons; [right; unfold mk, len; cbn [s_ count_ itemSize_ concat app length]; lia|]); apply Forall_nil.
    - repeat split; try reflexivity.
      apply (C77_symmetric_refuted T _ sym [x; y; z] []). left; split; [repr_ex|reflexivity].
  Qed.
End Joins.


(** ** Examples *)
Section Examples.
  Context {T : Type} `{Num T}.
  (** four functions on two Series; the Serie given a name is used twice *)
  Definition sample (x y z w : T) : program (T := T) :=
    Let (Call1 negate (Given (mk 2 [[x; y]; [z; w]] 3)))
        (fun s => Call2 add (Call1 (fun s => scale s x) (Given s)) (Call2 mult_serie (Given s) (Given (mk 1 [[y]; [w]] 3)))).

  Example C153_ex : forall x y z w : T,
    written (sample x y z w) /\
    (let a v := n_mul v (n_of_Z (-1)) in
     result (sample x y z w) =
       Ok (mk 2 [[n_add (n_mul (a x) x) (n_mul (a x) y); n_add (n_mul (a y) x) (n_mul (a y) y)];
                 [n_add (n_mul (a z) x) (n_mul (a z) w); n_add (n_mul (a w) x) (n_mul (a w) w)]] 3)) /\
    (** shapes that do not fit: an exception, not undefined behaviour *)
    written (Call2 add (Given (mk 2 [[x; y]] 3)) (Given (mk 1 [[x]; [y]] 3))) /\
    result (Call2 add (Given (mk 2 [[x; y]] 3)) (Given (mk 1 [[x]; [y]] 3))) = Throw InvalidArgument /\
    sound {| s_ := [x; y; z]; count_ := 1; dimension_ := 3; itemSize_ := 2 |} /\
    ~ sound {| s_ := [x; y; z]; count_ := 2; dimension_ := 3; itemSize_ := 2 |}.
  Proof.
    intros x y z w.
    assert (S : forall k l n d, 1 <= k < 2147483648 -> 0 <= n -> n * k <= len l < n * k + k -> len l < 4294967296 ->
              sound (T := T) {| s_ := l; count_ := n; dimension_ := d; itemSize_ := k |}) by (intros; right; simpl; lia).
    assert (S1 : sound (mk 2 [[x; y]; [z; w]] 3)) by (apply S; unfold len; cbn [concat app length]; lia).
    assert (S2 : sound (mk 1 [[y]; [w]] 3)) by (apply S; unfold len; cbn [concat app length]; lia).
    assert (S3 : sound (mk 2 [[x; y]] 3)) by (apply S; unfold len; cbn [concat app length]; lia).
    assert (S4 : sound (mk 1 [[x]; [y]] 3)) by (apply S; unfold len; cbn [concat app length]; lia).
    split; [|split; [|split; [|split; [|split]]]].
    - unfold sample. apply w_let; [apply w_call1; [constructor|constructor; exact S1]|].
      intros s Hs. apply w_call2; [constructor| |].
      + apply w_call1; constructor; exact Hs.
      + apply w_call2; [constructor|constructor; exact Hs|constructor; exact S2].
    - reflexivity.
    - apply w_call2; [constructor|constructor; exact S3|constructor; exact S4].
    - reflexivity.
    - apply S; unfold len; cbn [length]; lia.
    - intros [(A & _)|(_ & _ & A & _)]; cbn in A; [discriminate|]. unfold len in A; cbn [length] in A; lia.
  Qed.
End Examples.

Print Assumptions C153_constructors.
Print Assumptions C153_unary.
Print Assumptions C153_binary.
Print Assumptions C153_several.
Print Assumptions C153_reader.
Print Assumptions C153_programs.
Print Assumptions C153_joins.
Print Assumptions C153_zip.
Print Assumptions C153_clone.
Print Assumptions C153_left_out.
