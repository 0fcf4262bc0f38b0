(** * Lemmas on merge, concat, partition_n, zip, unzip. *)
From Verif Require Import Base Num Serie Spec BaseFacts SerieFacts Functional FunctionalFacts Utils.
From Coq Require Import Permutation.

Ltac Zify.zify_post_hook ::= Z.div_mod_to_equations.

(** element [i] as a list of at most one element *)
Definition at_ {A} (l : list A) (i : nat) : list A :=
  match nth_error l i with Some x => [x] | None => [] end.

Lemma flat_map_at {A} (l : list A) : forall n, (length l <= n)%nat ->
  flat_map (at_ l) (seq 0 n) = l.
Proof.
  induction l as [|x l IH]; intros n Hn.
  - assert (E : forall m s, flat_map (at_ (@nil A)) (seq s m) = []).
    { induction m as [|m IHm]; intros s; [reflexivity|]; simpl.
      unfold at_ at 1; destruct s; simpl; apply IHm. }
    apply E.
  - destruct n as [|n]; [simpl in Hn; lia|]; simpl; f_equal.
    rewrite <- seq_shift, flat_map_concat_map, map_map.
    etransitivity; [|apply (IH n); simpl in Hn; lia].
    rewrite flat_map_concat_map; reflexivity.
Qed.

Lemma skipn_skipn' {A} a b (l : list A) : skipn a (skipn b l) = skipn (b + a) l.
Proof.
  revert l; induction b as [|b IH]; intros l; [reflexivity|].
  destruct l; simpl; [destruct a; reflexivity|apply IH].
Qed.

Section Emit.
  Context {T : Type} {NT : Num T}.

  (** [c] writes the rows [ys] at the cursor and advances it *)
  Definition emits (c : Serie T * Z -> outcome (Serie T * Z)) (k : Z) (ys : list (list T)) : Prop :=
    rows_of_size k ys /\
    forall done old dim,
      rows_of_size k done -> rows_of_size k old -> 0 <= k < 2147483648 ->
      len (done ++ old) < 4294967296 -> k * len (done ++ old) < 4294967296 ->
      (length ys <= length old)%nat ->
      c (mk k (done ++ old) dim, len done)
      = Ok (mk k ((done ++ ys) ++ skipn (length ys) old) dim, len (done ++ ys)).

  Lemma emits_nil k : emits (fun st => Ok st) k [].
  Proof.
    split; [constructor|]; intros; simpl; rewrite !app_nil_r; reflexivity.
  Qed.

  Lemma rows_app k (a b : list (list T)) : rows_of_size k (a ++ b) <-> rows_of_size k a /\ rows_of_size k b.
  Proof. apply Forall_app. Qed.
  Lemma rows_skipn k n (a : list (list T)) : rows_of_size k a -> rows_of_size k (skipn n a).
  Proof.
    intros Ha; rewrite <- (firstn_skipn n a) in Ha; apply rows_app in Ha; apply Ha.
  Qed.
  Lemma rows_firstn k n (a : list (list T)) : rows_of_size k a -> rows_of_size k (firstn n a).
  Proof.
    intros Ha; rewrite <- (firstn_skipn n a) in Ha; apply rows_app in Ha; apply Ha.
  Qed.

  Lemma emits_seq c1 c2 k ys1 ys2 :
    emits c1 k ys1 -> emits c2 k ys2 ->
    emits (fun st => let* st1 := c1 st in c2 st1) k (ys1 ++ ys2).
  Proof.
    intros [R1 H1] [R2 H2]; split; [apply rows_app; auto|].
    intros done old dim Hd Ho Hk Hl Hm Hle; rewrite app_length in Hle.
    rewrite H1 by (auto; lia); simpl.
    assert (El : len ((done ++ ys1) ++ skipn (length ys1) old) = len (done ++ old)).
    { rewrite !len_app; unfold len; rewrite skipn_length; lia. }
    rewrite H2; try rewrite El; auto.
    - do 2 f_equal; [|rewrite app_assoc; reflexivity].
      do 2 f_equal; [rewrite app_assoc; reflexivity|].
      rewrite app_length, skipn_skipn'; reflexivity.
    - apply rows_app; auto.
    - apply rows_skipn; auto.
    - rewrite skipn_length; lia.
  Qed.

  Lemma emits_ext c1 c2 k ys : (forall st, c1 st = c2 st) -> emits c1 k ys -> emits c2 k ys.
  Proof. intros E [R H]; split; [exact R|]; intros; rewrite <- E; auto. Qed.

  Lemma emits_foldO {A} (f : A -> Serie T * Z -> outcome (Serie T * Z)) (g : A -> list (list T)) k l :
    (forall x, In x l -> emits (f x) k (g x)) ->
    emits (foldO (fun st x => f x st) l) k (flat_map g l).
  Proof.
    induction l as [|x l IH]; intros Hf; simpl; [apply emits_nil|].
    apply (emits_seq (f x) (foldO (fun st x => f x st) l)); [apply Hf; left; reflexivity|].
    apply IH; intros y Hy; apply Hf; right; exact Hy.
  Qed.

  Lemma upd_app {A} (done : list A) o old r :
    upd_nat (done ++ o :: old) (length done) r = done ++ r :: old.
  Proof. induction done as [|x done IH]; [reflexivity|]; simpl; rewrite IH; reflexivity. Qed.

  Lemma emits_put s i k r : get_array s i = Ok r -> len r = k -> emits (put_next s i) k [r].
  Proof.
    intros Hg Hr; split; [repeat constructor; exact Hr|].
    intros done old dim Hd Ho Hk Hl Hm Hle; destruct old as [|o old]; [simpl in Hle; lia|].
    unfold put_next; rewrite Hg; simpl.
    pose proof (len_nonneg done); pose proof (len_nonneg old).
    rewrite len_app, len_cons in Hl, Hm.
    rewrite set_array_mk; [|apply repr_mk; [apply rows_app; auto|auto|rewrite len_app, len_cons; lia|rewrite len_app, len_cons; lia]
                           |rewrite len_app, len_cons; lia|exact Hr].
    simpl; unfold len at 1; rewrite Nat2Z.id, upd_app, <- app_assoc, len_app; simpl.
    rewrite u32_small by lia; reflexivity.
  Qed.

  Lemma emits_put_if s k rows i :
    repr s k rows -> emits (put_next_if s (Z.of_nat i)) k (at_ rows i).
  Proof.
    intros Hs; unfold put_next_if, at_; rewrite (repr_count _ _ _ Hs).
    destruct (nth_error rows i) as [r|] eqn:E.
    - assert (Hi : (i < length rows)%nat) by (apply nth_error_Some; congruence).
      apply (emits_ext (put_next s (Z.of_nat i))).
      + intros st; destruct (Z.ltb_spec (Z.of_nat i) (len rows)); [reflexivity|unfold len in *; lia].
      + apply emits_put; [exact (repr_nth _ _ _ Hs i r E)|eapply rows_nth; [exact (repr_rows _ _ _ Hs)|exact E]].
    - apply nth_error_None in E; apply (emits_ext (fun st => Ok st)); [|apply emits_nil].
      intros st; destruct (Z.ltb_spec (Z.of_nat i) (len rows)); [unfold len in *; lia|reflexivity].
  Qed.

  Lemma foldO_ext {A B} (f g : A -> B -> outcome A) l : (forall a x, In x l -> f a x = g a x) ->
    forall a, foldO f l a = foldO g l a.
  Proof.
    induction l as [|x l IH]; intros E a; [reflexivity|]; simpl.
    rewrite E by (left; reflexivity); destruct (g a x); simpl; auto.
    apply IH; intros b y Hy; apply E; right; exact Hy.
  Qed.
  Lemma foldO_map {A B C} (f : A -> C -> outcome A) (h : B -> C) l : forall a,
    foldO f (map h l) a = foldO (fun a x => f a (h x)) l a.
  Proof.
    induction l as [|x l IH]; intros a; [reflexivity|]; simpl; destruct (f a (h x)); simpl; auto.
  Qed.

  Lemma emits_put_all s k rows : repr s k rows -> emits (put_next_all s) k rows.
  Proof.
    intros Hs; unfold put_next_all.
    assert (E : rows = flat_map (at_ rows) (seq 0 (length rows))) by (rewrite flat_map_at by lia; reflexivity).
    rewrite E; rewrite (repr_count _ _ _ Hs).
    apply (emits_ext (foldO (fun st i => put_next_if s (Z.of_nat i) st) (seq 0 (length rows)))).
    - intros st; rewrite iota_len; unfold seqZ; rewrite foldO_map.
      apply foldO_ext; intros a x Hx; apply in_seq in Hx.
      unfold put_next_if; rewrite (repr_count _ _ _ Hs).
      destruct (Z.ltb_spec (Z.of_nat x) (len rows)); [reflexivity|unfold len in *; lia].
    - apply emits_foldO; intros i _; apply emits_put_if; exact Hs.
  Qed.

  (** from a fresh Serie of exactly the right count *)
  Lemma emits_run c k ys :
    emits c k ys -> 0 <= k < 2147483648 -> len ys < 4294967296 -> k * len ys < 4294967296 ->
    c (serie_n k (len ys) 3, 0) = Ok (mk k ys 3, len ys).
  Proof.
    intros [R H] Hk Hl Hm; pose proof (len_nonneg ys).
    rewrite serie_n_mk by lia.
    specialize (H [] (zrows k (len ys)) 3); cbn [app] in H; change (len (@nil (list T))) with 0 in H.
    rewrite H; auto.
    - rewrite skipn_all2, app_nil_r; [reflexivity|].
      pose proof (len_zrows (T:=T) k (len ys) ltac:(lia)) as E; unfold len in *; lia.
    - constructor.
    - apply rows_zrows; lia.
    - rewrite len_zrows by lia; lia.
    - rewrite len_zrows by lia; lia.
    - pose proof (len_zrows (T:=T) k (len ys) ltac:(lia)) as E; unfold len in *; lia.
  Qed.
End Emit.

(** ** the interleavings of the specification *)
Lemma interleave_at {A} (a b : list A) : forall n, (length a <= n)%nat -> (length b <= n)%nat ->
  flat_map (fun i => at_ a i ++ at_ b i) (seq 0 n) = interleave a b.
Proof.
  revert b; induction a as [|x a IH]; intros b n Ha Hb.
  - assert (E : flat_map (fun i => at_ (@nil A) i ++ at_ b i) (seq 0 n) = flat_map (at_ b) (seq 0 n)).
    { apply flat_map_ext; intros i; unfold at_ at 1; destruct i; reflexivity. }
    rewrite E, flat_map_at by exact Hb; destruct b; reflexivity.
  - destruct b as [|y b].
    + assert (E : flat_map (fun i => at_ (x :: a) i ++ at_ (@nil A) i) (seq 0 n) = flat_map (at_ (x :: a)) (seq 0 n)).
      { apply flat_map_ext; intros i; unfold at_ at 2; destruct i; apply app_nil_r. }
      rewrite E, flat_map_at by exact Ha; reflexivity.
    + destruct n as [|n]; [simpl in Ha; lia|]; simpl; do 2 f_equal.
      rewrite <- (IH b n) by (simpl in Ha, Hb; lia).
      rewrite <- seq_shift, !flat_map_concat_map, map_map; reflexivity.
Qed.

Lemma round_robin_at {A} (tables : list (list A)) : forall n,
  flat_map (fun i => flat_map (fun t => at_ t i) tables) (seq 0 n) = round_robin n tables.
Proof.
  intros n; revert tables; induction n as [|n IH]; intros tables; [reflexivity|].
  simpl; f_equal.
  - apply flat_map_ext; intros [|x t]; reflexivity.
  - rewrite <- IH, <- seq_shift, flat_map_concat_map, map_map, <- flat_map_concat_map.
    apply flat_map_ext; intros i; rewrite !flat_map_concat_map, map_map.
    f_equal; apply map_ext; intros [|x t]; [destruct i; reflexivity|reflexivity].
Qed.

Lemma round_robin_perm {A} (tables : list (list A)) : forall n, (longest tables <= n)%nat ->
  Permutation (concat tables) (round_robin n tables).
Proof.
  intros n; revert tables; induction n as [|n IH]; intros tables Hn.
  - replace (concat tables) with (@nil A); [constructor|].
    induction tables as [|t ts IHt]; [reflexivity|].
    unfold longest in *; cbn [map fold_right] in Hn; destruct t; [|cbn [length] in Hn; lia].
    simpl; apply IHt; lia.
  - cbn [round_robin]; rewrite <- IH.
    + clear; induction tables as [|t ts IHt]; [constructor|]; simpl.
      rewrite IHt; destruct t as [|x t]; simpl; [reflexivity|]; apply perm_skip.
      rewrite !app_assoc; apply Permutation_app_tail, Permutation_app_comm.
    + clear IH; induction tables as [|t ts IHt]; [unfold longest; simpl; lia|].
      unfold longest in *; cbn [map fold_right] in *; pose proof (skipn_length 1 t); lia.
Qed.
Lemma interleave_perm {A} (a b : list A) : Permutation (a ++ b) (interleave a b).
Proof.
  revert b; induction a as [|x a IH]; intros b; [destruct b; reflexivity|].
  destruct b as [|y b]; simpl; [rewrite app_nil_r; reflexivity|].
  apply perm_skip; rewrite <- IH; symmetry; apply Permutation_middle.
Qed.
