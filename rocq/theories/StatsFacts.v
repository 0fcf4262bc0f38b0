(** * Lemmas on src/functional/stats. *)
From Verif Require Import Base Num Serie Spec BaseFacts SerieFacts Functional FunctionalFacts Utils Mathf MathFacts MinMaxFacts Stats.
From Verif Require Import Props_Functional Props_Fold.
Open Scope Z_scope.

Section ForEach.
  Context {T : Type} {NT : Num T} {St : Type}.
  Lemma forEach_s_calls (cb : T -> Z -> M St unit) s xs st ys st' :
    repr s 1 (col xs) -> calls cb (enum xs) st ys st' -> forEach_s cb s st = (Ok tt, st').
  Proof.
    intros Hs Hc; unfold forEach_s; rewrite (repr_itemSize _ _ _ Hs), (repr_count _ _ _ Hs), len_col; cbn [Z.eqb Pos.eqb negb].
    rewrite (mbind_ok _ _ _ _ _ (each_ok _ cb _ st ys st' (reads_scalar s xs Hs) Hc)); reflexivity.
  Qed.
  Lemma forEach_v_calls (cb : list T -> Z -> M St unit) s k rows st ys st' :
    repr s k rows -> k <> 1 -> calls cb (enum rows) st ys st' -> forEach_v cb s st = (Ok tt, st').
  Proof.
    intros Hs Hk Hc; unfold forEach_v; rewrite (repr_itemSize _ _ _ Hs), (repr_count _ _ _ Hs).
    destruct (Z.eqb_spec k 1); [congruence|].
    rewrite (mbind_ok _ _ _ _ _ (each_ok _ cb _ st ys st' (reads_array s k rows Hs) Hc)); reflexivity.
  Qed.
  (** callbacks that return nothing and update the state by a function *)
  Lemma calls_state {A} (f : A -> Z -> M St unit) (g : St -> A -> St) (ok : St -> Prop) l : forall i st,
    ok st -> (forall x j st, In x l -> ok st -> f x j st = (Ok tt, g st x) /\ ok (g st x)) ->
    calls f (enum_from i l) st (map (fun _ => tt) l) (fold_left g l st) /\ ok (fold_left g l st).
  Proof.
    induction l as [|x l IH]; intros i st Hst Hf; cbn [enum_from map fold_left]; [split; [constructor|exact Hst]|].
    destruct (Hf x i st (or_introl eq_refl) Hst) as [E Hok].
    destruct (IH (i + 1) (g st x) Hok) as [C O]; [intros; apply Hf; auto; right; assumption|].
    split; [econstructor; [exact E|exact C]|exact O].
  Qed.
End ForEach.

Section Mean.
  Context {T : Type} {NT : Num T}.
  Lemma mean_scalar (s : Serie T) xs : repr s 1 (col xs) ->
    mean s = Ok (Number (n_div (fold_left n_add xs (n_of_Z 0)) (n_of_Z (len xs)))).
  Proof.
    intros Hs; unfold mean; rewrite (repr_itemSize _ _ _ Hs), (repr_count _ _ _ Hs), len_col; cbn [Z.eqb Pos.eqb].
    rewrite (C23_reduce_fold_left T NT s xs n_add (n_of_Z 0) Hs); reflexivity.
  Qed.
  Lemma accumulate_ok (a b : list T) i : len a = len b -> accumulate a i b = (Ok tt, map2 n_add b a).
  Proof. intros E; unfold accumulate; rewrite E, (upd_each_map2 n_add b a E); reflexivity. Qed.
  Lemma mean_vector (s : Serie T) k rows : repr s k rows -> 2 <= k ->
    mean s = Ok (Vector (map (fun v => n_div v (n_of_Z (len rows))) (fold_left (map2 n_add) rows (replicate k (n_of_Z 0))))).
  Proof.
    intros Hs Hk; unfold mean; rewrite (repr_itemSize _ _ _ Hs), (repr_count _ _ _ Hs).
    destruct (Z.eqb_spec k 1); [lia|]; unfold createArray.
    pose proof (repr_rows _ _ _ Hs) as Hr.
    destruct (calls_state accumulate (fun b r => map2 n_add b r) (fun b => len b = k) rows 0 (replicate k (n_of_Z 0))) as [C _].
    - apply len_replicate; lia.
    - intros r j b Hin Hb; assert (Lr : len r = k) by (unfold rows_of_size in Hr; rewrite Forall_forall in Hr; auto).
      split; [apply accumulate_ok; congruence|rewrite len_map2; congruence].
    - rewrite (forEach_v_calls accumulate s k rows _ _ _ Hs ltac:(lia) C); reflexivity.
  Qed.
End Mean.
