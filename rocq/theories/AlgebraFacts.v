(** * Lemmas on src/functional/algebra. *)
From Verif Require Import Base Num Serie Spec BaseFacts SerieFacts Functional FunctionalFacts Mathf MathFacts MinMaxFacts Views Algebra.
From Verif Require Import Props_Functional.
Open Scope Z_scope.

Lemma foldO_hom {A A' B} (h : A -> A') (f : A -> B -> outcome A) (f' : A' -> B -> outcome A') l :
  (forall a x, f' (h a) x = let* a' := f a x in Ok (h a')) -> forall a, foldO f' l (h a) = let* a' := foldO f l a in Ok (h a').
Proof.
  intros Hf; induction l as [|x l IH]; intros a; [reflexivity|]; cbn [foldO]; rewrite Hf.
  destruct (f a x); cbn [obind]; [apply IH|reflexivity|reflexivity].
Qed.

(** lists of known length *)
Lemma len1 {A} (r : list A) : len r = 1 -> exists a, r = [a].
Proof. destruct r as [|a [|? r]]; unfold len; simpl; intros; try lia; eauto. Qed.
Lemma len2 {A} (r : list A) : len r = 2 -> exists a b, r = [a; b].
Proof. destruct r as [|a [|b [|? r]]]; unfold len; simpl; intros; try lia; eauto. Qed.
Lemma len3 {A} (r : list A) : len r = 3 -> exists a b c, r = [a; b; c].
Proof. destruct r as [|a [|b [|c [|? r]]]]; unfold len; simpl; intros; try lia; eauto. Qed.
Lemma len4 {A} (r : list A) : len r = 4 -> exists a b c d, r = [a; b; c; d].
Proof. destruct r as [|a [|b [|c [|d [|? r]]]]]; unfold len; simpl; intros; try lia; eauto. Qed.
Lemma len6 {A} (r : list A) : len r = 6 -> exists a b c d e f, r = [a; b; c; d; e; f].
Proof. destruct r as [|a [|b [|c [|d [|e [|f [|? r]]]]]]]; unfold len; simpl; intros; try lia; do 6 eexists; reflexivity. Qed.
Lemma len9 {A} (r : list A) : len r = 9 -> exists a b c d e f g h i, r = [a; b; c; d; e; f; g; h; i].
Proof.
  destruct r as [|a [|b [|c [|d [|e [|f [|g [|h [|i [|? r]]]]]]]]]]; unfold len; simpl; intros; try lia; do 9 eexists; reflexivity.
Qed.

Section Item.
  Context {T : Type} {NT : Num T}.

  (** sum of the products, from left to right *)
  Definition sum_prod (u v : list T) : T := fold_left n_add (map2 n_mul u v) (n_of_Z 0).

  Lemma sum_prod_loop (u v : list T) : len u = len v ->
    foldO (fun d i => let* x := rd u i in let* y := rd v i in Ok (n_add d (n_mul x y))) (iota (len u)) (n_of_Z 0) = Ok (sum_prod u v).
  Proof.
    intros Hl.
    assert (Lc : len (combine u v) = len u) by (unfold len in *; rewrite combine_length; lia).
    rewrite <- Lc at 1.
    rewrite (foldO_ext _ (fun d i => let* p := (let* x := rd u i in let* y := rd v i in Ok (x, y)) in Ok (n_add d (n_mul (fst p) (snd p))))).
    2: { intros d i _; destruct (rd u i); cbn [obind]; try reflexivity; destruct (rd v i); reflexivity. }
    rewrite (foldO_reads (fun i => let* x := rd u i in let* y := rd v i in Ok (x, y)) (fun d p => n_add d (n_mul (fst p) (snd p))) (combine u v)).
    - unfold sum_prod; generalize (@n_of_Z T NT 0); clear; revert v; induction u as [|x u IH]; intros [|y v] a; cbn [combine map2 fold_left]; try reflexivity; apply IH.
    - intros j p E; cbn [Nat.add]; assert (Hj : (j < length (combine u v))%nat) by (apply nth_error_Some; congruence).
      rewrite combine_length in Hj.
      destruct (nth_error_len u j ltac:(lia)) as [x Hx]; destruct (nth_error_len v j ltac:(lia)) as [y Hy].
      rewrite (rd_nat _ _ _ Hx), (rd_nat _ _ _ Hy); cbn [obind]; f_equal.
      assert (Q : nth_error (combine u v) j = Some (x, y)).
      { clear - Hx Hy; revert v j Hx Hy; induction u as [|a u IH]; intros [|b v] [|j]; simpl; try discriminate; [congruence|apply IH]. }
      congruence.
  Qed.
  Lemma dot_item_ok k (u v : list T) : len u = k -> len v = k -> dot_item k u v = Ok [sum_prod u v].
  Proof.
    intros Hu Hv; unfold dot_item; change (createArray 1 (n_of_Z 0)) with [@n_of_Z T NT 0].
    rewrite (foldO_hom (fun d : T => [d]) (fun d i => let* x := rd u i in let* y := rd v i in Ok (n_add d (n_mul x y)))).
    - subst k; rewrite sum_prod_loop by congruence; reflexivity.
    - intros d i; destruct (rd u i); cbn [obind]; try reflexivity; destruct (rd v i); reflexivity.
  Qed.
  Lemma sq_loop (v : list T) :
    foldO (fun n j => let* w := rd v j in Ok (n_add n (n_mul w w))) (iota (len v)) (n_of_Z 0) = Ok (sum_prod v v).
  Proof.
    rewrite <- (sum_prod_loop v v eq_refl); apply foldO_ext; intros d i _; destruct (rd v i); reflexivity.
  Qed.

  (** a map whose callback succeeds on every row *)
  Lemma map_rows_ok (s : Serie T) k rows (f : list T -> outcome (list T)) (g : list T -> list T) k1 :
    repr s k rows -> rows <> [] -> 1 <= k1 < 2147483648 -> (forall r, In r rows -> f r = Ok (g r) /\ len (g r) = k1) ->
    run (map_vv (fun r _ => lift (f r)) s) = Ok (mk k1 (map g rows) 3).
  Proof.
    intros Hs Hne Hk Hf; apply (run_map_vv _ s k rows k1 (map g rows) Hs Hne Hk).
    - apply map_length.
    - apply Forall_forall; intros y Hy; apply in_map_iff in Hy; destruct Hy as (r & <- & Hr); apply Hf, Hr.
    - intros j r y Er Ey; rewrite nth_error_map, Er in Ey; injection Ey as <-.
      destruct (Hf r (nth_error_In _ _ Er)) as [-> _]; reflexivity.
  Qed.
  (** the first row refused by the callback *)
  Lemma map_rows_throw (s : Serie T) k rows (f : list T -> outcome (list T)) (g : list T -> list T) k1 e :
    repr s k rows -> (forall r, In r rows -> (f r = Ok (g r) /\ len (g r) = k1) \/ f r = Throw e) ->
    (exists r, In r rows /\ f r = Throw e) -> run (map_vv (fun r _ => lift (f r)) s) = Throw e.
  Proof.
    intros Hs Hf (r0 & Hr0 & E0); unfold run, map_vv; rewrite (repr_count _ _ _ Hs).
    assert (G : forall rows i, (forall r, In r rows -> (f r = Ok (g r) /\ len (g r) = k1) \/ f r = Throw e) ->
        (exists r, In r rows /\ f r = Throw e) ->
        exists pre r j post ys, enum_from i rows = pre ++ (r, j) :: post /\ calls (fun r _ => lift (f r)) pre tt ys tt /\ rows_of_size k1 ys /\ f r = Throw e).
    { clear; induction rows as [|r rows IH]; intros i Hf (r0 & Hr0 & E0); [destruct Hr0|].
      destruct (Hf r (or_introl eq_refl)) as [[E L]|E].
      - destruct (IH (i + 1)) as (pre & r1 & j & post & ys & E1 & C & R & E2); [intros; apply Hf; right; assumption| |].
        + exists r0; split; [destruct Hr0 as [->|]; [congruence|assumption]|exact E0].
        + exists ((r, i) :: pre), r1, j, post, (g r :: ys); split; [cbn [enum_from app]; rewrite E1; reflexivity|].
          split; [|split; [constructor; [exact L|exact R]|exact E2]].
          econstructor; [unfold lift; rewrite E; reflexivity|exact C].
      - exists [], r, i, (enum_from (i + 1) rows), []; repeat split; auto; constructor. }
    destruct (G rows 0 Hf (ex_intro _ r0 (conj Hr0 E0))) as (pre & r & j & post & ys & E1 & C & R & E2).
    rewrite (map_arr_throw (get_array s) _ rows k1 tt ys tt pre r j post e tt); [reflexivity|eapply reads_array; exact Hs|exact E1|exact C|exact R|].
    unfold lift; rewrite E2; reflexivity.
  Qed.
End Item.
