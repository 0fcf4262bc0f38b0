(** * Lemmas on the functional layer. *)
From Verif Require Import Base Num Serie Spec BaseFacts SerieFacts Functional.
From Coq Require Import Permutation.

Ltac Zify.zify_post_hook ::= Z.div_mod_to_equations.

(** [get] delivers [items] *)
Definition reads {A} (get : Z -> outcome A) (items : list A) : Prop :=
  forall j x, nth_error items j = Some x -> get (Z.of_nat j) = Ok x.

Lemma reads_In_enum {A} (get : Z -> outcome A) items a :
  (forall j x, nth_error items j = Some x -> get (Z.of_nat (a + j)) = Ok x) ->
  forall x i, In (x, i) (enum_from (Z.of_nat a) items) -> get i = Ok x.
Proof.
  revert a; induction items as [|y items IH]; intros a Hg x i Hin; [destruct Hin|].
  simpl in Hin; destruct Hin as [E|Hin].
  - injection E as <- <-; rewrite <- (Nat.add_0_r a); apply Hg; reflexivity.
  - replace (Z.of_nat a + 1) with (Z.of_nat (S a)) in Hin by lia.
    apply (IH (S a)); auto.
    intros j z Hj; replace (S a + j)%nat with (a + S j)%nat by lia; apply Hg; exact Hj.
Qed.

(** ** generic index loops *)
Section Loops.
  Context {St : Type}.

  Lemma each_reads {A B} (get : Z -> outcome A) (cb : A -> Z -> M St B) items st :
    reads get items ->
    each get cb (len items) st = mapM (fun p => cb (fst p) (snd p)) (enum items) st.
  Proof. intros Hg; unfold each; rewrite iota_len; apply (mapM_index get cb items 0); exact Hg. Qed.

  Lemma collect_fold {A} (f : A -> Z -> M St bool) w l acc st :
    foldM (fun acc p => let! b := f (fst p) (snd p) in
                        ret (if Bool.eqb b w then acc ++ [snd p] else acc)) l acc st
    = (let! bs := mapM (fun p => f (fst p) (snd p)) l in
       ret (acc ++ select (map snd l) (map (fun b => Bool.eqb b w) bs))) st.
  Proof.
    revert acc st; induction l as [|[x i] l IH]; intros acc st.
    - unfold mbind, ret; simpl; unfold ret; rewrite app_nil_r; reflexivity.
    - simpl; unfold mbind in *; destruct (f x i st) as [[b|e|] st1]; try reflexivity.
      unfold ret in *; rewrite IH.
      destruct (mapM (fun p => f (fst p) (snd p)) l st1) as [[bs|e|] st2]; try reflexivity.
      simpl; destruct (Bool.eqb b w); simpl; [rewrite <- app_assoc|]; reflexivity.
  Qed.

  Lemma collect_reads {A} (get : Z -> outcome A) (cb : A -> Z -> M St bool) w items st :
    reads get items ->
    collect get cb w (len items) st
    = (let! bs := mapM (fun p => cb (fst p) (snd p)) (enum items) in
       ret (select (map snd (enum items)) (map (fun b => Bool.eqb b w) bs))) st.
  Proof.
    intros Hg; unfold collect; rewrite iota_len.
    rewrite (foldM_index get (fun acc x i => let! b := cb x i in
       ret (if Bool.eqb b w then acc ++ [i] else acc)) items 0) by exact Hg.
    apply (collect_fold cb w (enum items) [] st).
  Qed.

  Lemma collect2_fold {A} (f : A -> Z -> M St bool) l a1 a2 st :
    foldM (fun (acc : list Z * list Z) p => let! b := f (fst p) (snd p) in
             ret (if b then (fst acc ++ [snd p], snd acc) else (fst acc, snd acc ++ [snd p])))
          l (a1, a2) st
    = (let! bs := mapM (fun p => f (fst p) (snd p)) l in
       ret (a1 ++ select (map snd l) bs, a2 ++ select (map snd l) (map negb bs))) st.
  Proof.
    revert a1 a2 st; induction l as [|[x i] l IH]; intros a1 a2 st.
    - unfold mbind, ret; simpl; unfold ret; rewrite !app_nil_r; reflexivity.
    - simpl; unfold mbind in *; destruct (f x i st) as [[b|e|] st1]; try reflexivity.
      unfold ret in *; destruct b; rewrite IH;
      destruct (mapM (fun p => f (fst p) (snd p)) l st1) as [[bs|e|] st2]; try reflexivity;
      simpl; rewrite <- app_assoc; reflexivity.
  Qed.

  Lemma collect2_reads {A} (get : Z -> outcome A) (cb : A -> Z -> M St bool) items st :
    reads get items ->
    collect2 get cb (len items) st
    = (let! bs := mapM (fun p => cb (fst p) (snd p)) (enum items) in
       ret (select (map snd (enum items)) bs, select (map snd (enum items)) (map negb bs))) st.
  Proof.
    intros Hg; unfold collect2; rewrite iota_len.
    rewrite (foldM_index get (fun (acc : list Z * list Z) x i => let! b := cb x i in
       ret (if b : bool then (fst acc ++ [i], snd acc) else (fst acc, snd acc ++ [i]))) items 0) by exact Hg.
    apply (collect2_fold cb (enum items) [] [] st).
  Qed.

  Lemma find_loop_index {A} (get : Z -> outcome A) (cb : A -> Z -> M St bool) none :
    forall items a, (forall j x, nth_error items j = Some x -> get (Z.of_nat (a + j)) = Ok x) ->
    forall pre x i post st bs st1,
    enum_from (Z.of_nat a) items = pre ++ (x, i) :: post ->
    calls cb pre st bs st1 -> Forall (fun b => b = false) bs ->
    find_loop get cb none (seqZ a (length items)) st
    = (let! b := cb x i in if b : bool then ret (mkFind x i true)
                           else find_loop get cb none (map snd post)) st1.
  Proof.
    induction items as [|y items IH]; intros a Hg pre x i post st bs st1 E Hc Hf.
    - destruct pre; discriminate.
    - simpl length; rewrite seqZ_S.
      assert (E0 : get (Z.of_nat a) = Ok y) by (rewrite <- (Nat.add_0_r a); apply Hg; reflexivity).
      assert (Hg' : forall j x, nth_error items j = Some x -> get (Z.of_nat (S a + j)) = Ok x).
      { intros j z Hj; replace (S a + j)%nat with (a + S j)%nat by lia; apply Hg; exact Hj. }
      assert (Es : Z.of_nat a + 1 = Z.of_nat (S a)) by lia.
      cbn [find_loop]; unfold mbind at 1, lift; rewrite E0.
      simpl in E; destruct pre as [|[x' i'] pre].
      + injection E as <- <- Ep; inversion Hc; subst bs st1.
        rewrite <- Ep, Es, map_snd_enum; reflexivity.
      + injection E as <- <- Ep; inversion Hc as [|x0 i0 r0 s0 b s1 bs0 s2 Hcb Hcr]; subst.
        inversion Hf as [|b0 bs1 Hb Hf']; subst.
        rewrite (mbind_ok _ _ _ _ _ Hcb).
        rewrite Es in Ep; apply (IH (S a) Hg' pre x i post s1 bs0 st1); auto.
  Qed.

  Lemma find_loop_none {A} (get : Z -> outcome A) (cb : A -> Z -> M St bool) none :
    forall items a, (forall j x, nth_error items j = Some x -> get (Z.of_nat (a + j)) = Ok x) ->
    forall st bs st1,
    calls cb (enum_from (Z.of_nat a) items) st bs st1 -> Forall (fun b => b = false) bs ->
    find_loop get cb none (seqZ a (length items)) st = (Ok (mkFind none 0 false), st1).
  Proof.
    induction items as [|y items IH]; intros a Hg st bs st1 Hc Hf.
    - inversion Hc; subst; reflexivity.
    - simpl length; rewrite seqZ_S.
      assert (E0 : get (Z.of_nat a) = Ok y) by (rewrite <- (Nat.add_0_r a); apply Hg; reflexivity).
      assert (Hg' : forall j x, nth_error items j = Some x -> get (Z.of_nat (S a + j)) = Ok x).
      { intros j z Hj; replace (S a + j)%nat with (a + S j)%nat by lia; apply Hg; exact Hj. }
      assert (Es : Z.of_nat a + 1 = Z.of_nat (S a)) by lia.
      cbn [find_loop]; unfold mbind at 1, lift; rewrite E0.
      simpl in Hc; inversion Hc as [|x0 i0 r0 s0 b s1 bs0 s2 Hcb Hcr]; subst.
      inversion Hf as [|b0 bs1 Hb Hf']; subst.
      rewrite (mbind_ok _ _ _ _ _ Hcb); rewrite Es in Hcr; apply (IH (S a) Hg' s1 bs0 st1); auto.
  Qed.

  Lemma folds_foldM {A X} (f : A -> X -> Z -> M St A) l a st a' st' :
    folds f l a st a' st' <-> foldM (fun acc p => f acc (fst p) (snd p)) l a st = (Ok a', st').
  Proof.
    split.
    - induction 1 as [a st|x i r a st a1 st1 a2 st2 Hf Hr IH]; [reflexivity|].
      simpl; unfold mbind; rewrite Hf; exact IH.
    - revert a st; induction l as [|[x i] l IH]; intros a st; simpl; unfold mbind.
      + intros E; injection E as <- <-; constructor.
      + destruct (f a x i st) as [[a1|e|] st1] eqn:Ef; try discriminate.
        intros E; econstructor; eauto.
  Qed.
  Lemma folds_throw_foldM {A X} (f : A -> X -> Z -> M St A) l a st e st' :
    folds_throw f l a st e st' <-> foldM (fun acc p => f acc (fst p) (snd p)) l a st = (Throw e, st').
  Proof.
    split.
    - induction 1 as [x i r a st e st1 Hf|x i r a st a1 st1 e st2 Hf Hr IH];
        simpl; unfold mbind; rewrite Hf; [reflexivity|exact IH].
    - revert a st; induction l as [|[x i] l IH]; intros a st; simpl; unfold mbind; [discriminate|].
      destruct (f a x i st) as [[a1|e1|] st1] eqn:Ef; try discriminate.
      + intros E; eapply ft_later; eauto.
      + intros E; injection E as <- <-; apply ft_here; exact Ef.
  Qed.
End Loops.

Lemma eqb_true_map bs : map (fun b => Bool.eqb b true) bs = bs.
Proof. induction bs as [|b bs IH]; simpl; [reflexivity|]; rewrite IH; destruct b; reflexivity. Qed.
Lemma eqb_false_map bs : map (fun b => Bool.eqb b false) bs = map negb bs.
Proof. induction bs as [|b bs IH]; simpl; [reflexivity|]; rewrite IH; destruct b; reflexivity. Qed.

Section FunctionalFacts.
  Context {T : Type} `{NT : Num T} {St : Type}.

  Lemma reads_scalar s (xs : list T) : repr s 1 (col xs) -> reads (get_double s) xs.
  Proof. intros Hs j x E; apply (repr_nth_scalar s xs Hs j x E). Qed.
  Lemma reads_array s k (rows : list (list T)) : repr s k rows -> reads (get_array s) rows.
  Proof. intros Hs j x E; apply (repr_nth s k rows Hs j x E). Qed.

  Lemma serie_of_1 (ys : list T) dim :
    len ys < 4294967296 -> serie_of 1 ys dim = Ok (mk 1 (col ys) dim).
  Proof.
    intros Hl; unfold serie_of, mk; simpl; rewrite concat_col, len_col.
    rewrite u64_small by lia; rewrite Z.div_1_r, u32_small by (pose proof (len_nonneg ys); lia).
    reflexivity.
  Qed.

  Lemma serie_of_rows k (rows : list (list T)) dim :
    1 <= k < 2147483648 -> rows_of_size k rows -> len rows < 4294967296 ->
    serie_of k (concat rows) dim = Ok (mk k rows dim).
  Proof.
    intros Hk Hr Hl; unfold serie_of, mk; destruct (Z.eqb_spec k 0); [lia|].
    rewrite (len_concat k) by exact Hr; rewrite u64_small by lia.
    rewrite Z.mul_comm, Z.div_mul by lia; rewrite u32_small by (pose proof (len_nonneg rows); lia).
    reflexivity.
  Qed.

  (** *** map with number results *)
  Lemma map_num_ok {A} (get : Z -> outcome A) (cb : A -> Z -> M St T) items st ys st' :
    reads get items -> len items < 4294967296 -> calls cb (enum items) st ys st' ->
    map_num get cb (len items) st = (Ok (mk 1 (col ys) 3), st').
  Proof.
    intros Hg Hl Hc; unfold map_num, mbind.
    rewrite (each_reads get cb items st Hg).
    pose proof (calls_length _ _ _ _ _ Hc) as Hlen.
    apply calls_mapM in Hc; rewrite Hc; unfold lift; rewrite serie_of_1; [reflexivity|].
    unfold enum in Hlen; rewrite enum_from_length in Hlen; unfold len in *; lia.
  Qed.
  Lemma map_num_throw {A} (get : Z -> outcome A) (cb : A -> Z -> M St T) items st e st' :
    reads get items -> calls_throw cb (enum items) st e st' ->
    map_num get cb (len items) st = (Throw e, st').
  Proof.
    intros Hg Hc; unfold map_num, mbind.
    rewrite (each_reads get cb items st Hg); apply calls_throw_mapM in Hc; rewrite Hc; reflexivity.
  Qed.

  (** *** map with Array results *)
  Lemma iota_from_1 {A} (x : A) items : iota_from 1 (len (x :: items)) = seqZ 1 (length items).
  Proof. unfold iota_from, seqZ; rewrite len_cons; f_equal; f_equal; unfold len; lia. Qed.

  Lemma arr_fold_ok {A} (cb : A -> Z -> M St (list T)) k l :
    forall st ys st' acc, calls cb l st ys st' -> Forall (fun y => len y = k) ys ->
    foldM (fun flattened p => let! result := cb (fst p) (snd p) in
             if negb (len result =? k) then throwM RuntimeError else ret (flattened ++ result)) l acc st
    = (Ok (acc ++ concat ys), st').
  Proof.
    intros st ys st' acc Hc; revert acc; induction Hc as [st|x i r st y st1 ys st2 Hf Hr IH]; intros acc HF.
    - simpl; unfold ret; rewrite app_nil_r; reflexivity.
    - inversion HF as [|y0 ys0 Hy HF']; subst.
      simpl; unfold mbind at 1; unfold mbind at 1; rewrite Hf, Z.eqb_refl; simpl; unfold ret at 1.
      rewrite IH by exact HF'; rewrite app_assoc; reflexivity.
  Qed.
  Lemma arr_fold_bad {A} (cb : A -> Z -> M St (list T)) k l :
    forall st ys st1 acc x i post y st2, calls cb l st ys st1 -> Forall (fun y => len y = k) ys ->
    cb x i st1 = (Ok y, st2) -> len y <> k ->
    foldM (fun flattened p => let! result := cb (fst p) (snd p) in
             if negb (len result =? k) then throwM RuntimeError else ret (flattened ++ result))
          (l ++ (x, i) :: post) acc st
    = (Throw RuntimeError, st2).
  Proof.
    intros st ys st1 acc x i post y st2 Hc; revert acc.
    induction Hc as [st|x0 i0 r st y0 s1 ys s2 Hf Hr IH]; intros acc HF Hcb Hne.
    - simpl; unfold mbind at 1; unfold mbind at 1; rewrite Hcb.
      destruct (Z.eqb_spec (len y) k); [contradiction|reflexivity].
    - inversion HF as [|y1 ys0 Hy HF']; subst.
      simpl; unfold mbind at 1; unfold mbind at 1; rewrite Hf, Z.eqb_refl; simpl; unfold ret at 1.
      apply IH; auto.
  Qed.
  Lemma arr_fold_throw {A} (cb : A -> Z -> M St (list T)) k l :
    forall st ys st1 acc x i post e st2, calls cb l st ys st1 -> Forall (fun y => len y = k) ys ->
    cb x i st1 = (Throw e, st2) ->
    foldM (fun flattened p => let! result := cb (fst p) (snd p) in
             if negb (len result =? k) then throwM RuntimeError else ret (flattened ++ result))
          (l ++ (x, i) :: post) acc st
    = (Throw e, st2).
  Proof.
    intros st ys st1 acc x i post e st2 Hc; revert acc.
    induction Hc as [st|x0 i0 r st y0 s1 ys s2 Hf Hr IH]; intros acc HF Hcb.
    - simpl; unfold mbind at 1; unfold mbind at 1; rewrite Hcb; reflexivity.
    - inversion HF as [|y1 ys0 Hy HF']; subst.
      simpl; unfold mbind at 1; unfold mbind at 1; rewrite Hf, Z.eqb_refl; simpl; unfold ret at 1.
      apply IH; auto.
  Qed.

  (** the loop over indices 1.. as a loop over the enumerated remaining items *)
  Lemma arr_loop_index {A} (get : Z -> outcome A) (cb : A -> Z -> M St (list T)) k x0 items acc st :
    reads get (x0 :: items) ->
    foldM (fun flattened i => let! x := lift (get i) in let! result := cb x i in
             if negb (len result =? k) then throwM RuntimeError else ret (flattened ++ result))
          (iota_from 1 (len (x0 :: items))) acc st
    = foldM (fun flattened p => let! result := cb (fst p) (snd p) in
             if negb (len result =? k) then throwM RuntimeError else ret (flattened ++ result))
          (enum_from 1 items) acc st.
  Proof.
    intros Hg; rewrite iota_from_1.
    apply (foldM_index get (fun flattened x i => let! result := cb x i in
             if negb (len result =? k) then throwM RuntimeError else ret (flattened ++ result)) items 1).
    intros j x Hj; apply Hg; exact Hj.
  Qed.

  Lemma map_arr_unfold {A} (get : Z -> outcome A) (cb : A -> Z -> M St (list T)) x0 items st :
    reads get (x0 :: items) ->
    map_arr get cb (len (x0 :: items)) st
    = (let! first := cb x0 0 in
       let! fl := foldM (fun flattened p => let! result := cb (fst p) (snd p) in
             if negb (len result =? len first) then throwM RuntimeError else ret (flattened ++ result))
          (enum_from 1 items) first in
       lift (serie_of (s32 (len first)) fl 3)) st.
  Proof.
    intros Hg; unfold map_arr.
    destruct (Z.eqb_spec (len (x0 :: items)) 0) as [E|_];
      [rewrite len_cons in E; pose proof (len_nonneg items); lia|].
    assert (E0 : get 0 = Ok x0) by exact (Hg O x0 eq_refl).
    rewrite (mbind_ok _ _ st x0 st) by (unfold lift; rewrite E0; reflexivity).
    apply mbind_cong; [reflexivity|]; intros first st1.
    apply mbind_cong; [|reflexivity].
    apply (arr_loop_index get cb _ x0 items first st1 Hg).
  Qed.

  Lemma map_arr_ok {A} (get : Z -> outcome A) (cb : A -> Z -> M St (list T)) items k st ys st' :
    reads get items -> items <> [] -> len items < 4294967296 -> 1 <= k < 2147483648 ->
    calls cb (enum items) st ys st' -> rows_of_size k ys ->
    map_arr get cb (len items) st = (Ok (mk k ys 3), st').
  Proof.
    intros Hg Hne Hl Hk Hc Hr; destruct items as [|x0 items]; [congruence|].
    rewrite (map_arr_unfold get cb x0 items st Hg).
    pose proof (calls_length _ _ _ _ _ Hc) as Hlen.
    inversion Hc as [|x i r s y0 st1 ys0 st2 Hf Hcr]; subst.
    inversion Hr as [|y ys1 Hy Hr']; subst.
    rewrite (mbind_ok _ _ _ _ _ Hf).
    rewrite (mbind_ok _ _ _ _ _ (arr_fold_ok cb (len y0) (enum_from (0 + 1) items) st1 ys0 st' y0 Hcr Hr')).
    unfold lift; rewrite s32_small by lia.
    change (y0 ++ concat ys0) with (concat (y0 :: ys0)).
    rewrite serie_of_rows; auto.
    simpl in Hlen; rewrite enum_from_length in Hlen; unfold len in *; simpl in *; lia.
  Qed.

  Lemma map_arr_empty {A} (get : Z -> outcome A) (cb : A -> Z -> M St (list T)) st :
    map_arr get cb 0 st = (Ok (serie_n 0 0 3), st).
  Proof. reflexivity. Qed.

  (** two results of different sizes: [pre] gave results of size k, the next result differs *)
  Lemma map_arr_bad {A} (get : Z -> outcome A) (cb : A -> Z -> M St (list T)) items k st ys st1 pre x i post y st2 :
    reads get items -> enum items = pre ++ (x, i) :: post -> pre <> [] ->
    calls cb pre st ys st1 -> rows_of_size k ys -> cb x i st1 = (Ok y, st2) -> len y <> k ->
    map_arr get cb (len items) st = (Throw RuntimeError, st2).
  Proof.
    intros Hg E Hne Hc Hr Hcb Hk; destruct pre as [|[x1 i1] pre]; [congruence|].
    destruct items as [|x0 items]; [discriminate|].
    injection E as <- <- Ep.
    rewrite (map_arr_unfold get cb x0 items st Hg).
    inversion Hc as [|x' i' r s y0 st1' ys0 st2' Hf Hcr]; subst.
    inversion Hr as [|y1 ys1 Hy Hr']; subst.
    rewrite (mbind_ok _ _ _ _ _ Hf); unfold mbind at 1.
    change (enum_from 1 items) with (enum_from (0 + 1) items); rewrite Ep.
    rewrite (arr_fold_bad cb (len y0) pre st1' ys0 st1 y0 x i post y st2); auto.
  Qed.

  Lemma map_arr_throw {A} (get : Z -> outcome A) (cb : A -> Z -> M St (list T)) items k st ys st1 pre x i post e st2 :
    reads get items -> enum items = pre ++ (x, i) :: post ->
    calls cb pre st ys st1 -> rows_of_size k ys -> cb x i st1 = (Throw e, st2) ->
    map_arr get cb (len items) st = (Throw e, st2).
  Proof.
    intros Hg E Hc Hr Hcb; destruct items as [|x0 items]; [destruct pre; discriminate|].
    rewrite (map_arr_unfold get cb x0 items st Hg).
    destruct pre as [|[x1 i1] pre].
    - injection E as <- <- Ep; inversion Hc; subst; unfold mbind at 1; rewrite Hcb; reflexivity.
    - injection E as <- <- Ep.
      inversion Hc as [|x' i' r s y0 st1' ys0 st2' Hf Hcr]; subst.
      inversion Hr as [|y1 ys1 Hy Hr']; subst.
      rewrite (mbind_ok _ _ _ _ _ Hf); unfold mbind at 1.
      change (enum_from 1 items) with (enum_from (0 + 1) items); rewrite Ep.
      rewrite (arr_fold_throw cb (len y0) pre st1' ys0 st1 y0 x i post e st2); auto.
  Qed.

  (** *** selections *)
  Lemma select_enum {A} (items : list A) bs :
    select items bs = map fst (select (enum items) bs).
  Proof. rewrite <- select_map; unfold enum; rewrite map_fst_enum; reflexivity. Qed.
  Lemma select_In {A} (l : list A) bs x : In x (select l bs) -> In x l.
  Proof.
    revert bs; induction l as [|y l IH]; intros [|b bs] Hin; simpl in *; auto.
    - destruct Hin.
    - destruct b; [destruct Hin as [->|Hin]; [left; reflexivity|]|]; right; eapply IH; exact Hin.
  Qed.
  Lemma select_len_le {A} (l : list A) bs : len (select l bs) <= len l.
  Proof. unfold len; pose proof (select_length_le l bs); lia. Qed.

  Lemma select_read {A} (get : Z -> outcome A) items bs :
    reads get items ->
    forall j x, nth_error (select items bs) j = Some x ->
    (let* idx := rd (select (map snd (enum items)) bs) (Z.of_nat j) in get idx) = Ok x.
  Proof.
    intros Hg j x Hj; rewrite select_map; rewrite select_enum in Hj.
    rewrite nth_error_map in Hj; destruct (nth_error (select (enum items) bs) j) as [[y i]|] eqn:E; [|discriminate].
    injection Hj as <-.
    rewrite (rd_nat _ _ i) by (rewrite nth_error_map, E; reflexivity); simpl.
    apply nth_error_In, select_In in E.
    eapply (reads_In_enum get items 0); [exact Hg|exact E].
  Qed.

  Lemma take_v_select s k (rows : list (list T)) bs :
    repr s k rows ->
    take_v s (select (map snd (enum rows)) bs) = Ok (mk k (select rows bs) 3).
  Proof.
    intros Hs; pose proof Hs as (Hk & Hc & _ & Hr & Hb & Hn & Hm).
    assert (El : len (select (map snd (enum rows)) bs) = len (select rows bs)).
    { rewrite select_map, (select_enum rows), !len_map; reflexivity. }
    pose proof (select_len_le rows bs) as Hle; pose proof (len_nonneg (select rows bs)) as Hp.
    unfold take_v, copy_v; rewrite (repr_itemSize s k rows Hs), s32_small, El, u32_small by lia.
    apply (fill_serie_n (fun i => let* idx := rd (select (map snd (enum rows)) bs) i in get_array s idx));
      auto; try lia; try nia.
    - apply select_rows; exact Hr.
    - apply select_read; eapply reads_array; exact Hs.
  Qed.

  Lemma take_s_select s (xs : list T) bs :
    repr s 1 (col xs) ->
    take_s s (select (map snd (enum xs)) bs) = Ok (mk 1 (col (select xs bs)) 3).
  Proof.
    intros Hs; pose proof Hs as (Hk & Hc & _ & Hr & Hb & Hn & Hm).
    assert (El : len (select (map snd (enum xs)) bs) = len (select xs bs)).
    { rewrite select_map, (select_enum xs), !len_map; reflexivity. }
    pose proof (select_len_le xs bs) as Hle; pose proof (len_nonneg (select xs bs)) as Hp.
    rewrite len_col in Hn.
    unfold take_s, copy_s; rewrite El, u32_small by lia.
    apply (fill_serie_n1 (fun i => let* idx := rd (select (map snd (enum xs)) bs) i in get_double s idx)); [lia|].
    apply select_read; apply reads_scalar; exact Hs.
  Qed.

  Lemma take_any_select s k (rows : list (list T)) bs :
    repr s k rows ->
    take_any s (select (map snd (enum rows)) bs) = Ok (mk k (select rows bs) 3).
  Proof.
    intros Hs; unfold take_any; rewrite (repr_itemSize s k rows Hs).
    destruct (Z.eqb_spec k 1) as [->|Hne].
    - pose proof (rows_size1_col rows (repr_rows _ _ _ Hs)) as Hcol.
      remember (concat rows) as xs eqn:Hxs; clear Hxs; subst rows.
      rewrite s32_small by lia.
      pose proof (take_s_select s xs bs Hs) as E; unfold take_s in E.
      assert (Ee : select (map snd (enum (col xs))) bs = select (map snd (enum xs)) bs).
      { f_equal; unfold enum; change 0 with (Z.of_nat 0); rewrite !map_snd_enum; f_equal.
        unfold col; apply map_length. }
      rewrite Ee, E; unfold col; rewrite select_map; reflexivity.
    - pose proof (take_v_select s k rows bs Hs) as E; unfold take_v in E.
      rewrite (repr_itemSize s k rows Hs) in E; exact E.
  Qed.

  (** *** several Series *)
  Lemma countAndCheck_ok ss kts n :
    @reprs T ss kts -> same_count n kts -> ss <> [] -> countAndCheck ss = Ok n.
  Proof.
    intros Hr Hn Hne; destruct Hr as [|s kt ss kts Hs Hr]; [congruence|].
    inversion Hn as [|kt0 kts0 Hl Hn']; subst.
    unfold countAndCheck; rewrite (repr_count _ _ _ Hs).
    replace (forallb _ ss) with true; [reflexivity|].
    symmetry; apply forallb_forall; intros s' Hin.
    clear Hs Hne; induction Hr as [|s1 kt1 ss kts Hs1 Hr IH]; [destruct Hin|].
    inversion Hn' as [|kt0 kts0 Hl Hn'']; subst.
    destruct Hin as [->|Hin].
    - rewrite (repr_count _ _ _ Hs1), Hl; apply Z.eqb_refl.
    - apply IH; auto. constructor; [reflexivity|auto].
  Qed.

  Lemma countAndCheck_throw (ss : list (Serie T)) s1 s2 :
    In s1 ss -> In s2 ss -> count s1 <> count s2 -> countAndCheck ss = Throw InvalidArgument.
  Proof.
    destruct ss as [|s0 ss]; [intros []|]; intros H1 H2 Hne; unfold countAndCheck.
    destruct (forallb (fun s => count s =? count s0) ss) eqn:E; [|reflexivity].
    exfalso; rewrite forallb_forall in E; apply Hne.
    assert (G : forall s, In s (s0 :: ss) -> count s = count s0).
    { intros s [->|Hin]; [reflexivity|]; apply Z.eqb_eq, E; exact Hin. }
    rewrite (G s1 H1), (G s2 H2); reflexivity.
  Qed.

  Lemma reads_all ss kts n :
    @reprs T ss kts -> same_count (Z.of_nat n) kts -> reads (get_all ss) (tuples n (map snd kts)).
  Proof.
    intros Hr Hn j x Hj; unfold tuples in Hj; rewrite nth_error_map in Hj.
    destruct (nth_error (seq 0 n) j) as [i|] eqn:E; [|discriminate].
    assert (Hi : i = j /\ (j < n)%nat).
    { assert (Hlt : (j < n)%nat) by (rewrite <- (seq_length n 0); apply nth_error_Some; congruence).
      split; [|exact Hlt]. rewrite (nth_error_nth' _ O) in E by (rewrite seq_length; exact Hlt).
      rewrite seq_nth in E by exact Hlt; injection E as <-; reflexivity. }
    destruct Hi as [-> Hlt]; injection Hj as <-.
    unfold get_all, across; clear E.
    induction Hr as [|s kt ss kts Hs Hr IH]; [reflexivity|].
    inversion Hn as [|kt0 kts0 Hl Hn']; subst; simpl.
    rewrite (get_array_repr _ _ _ _ Hs) by lia.
    rewrite (rd_nth _ _ []) by lia; rewrite Nat2Z.id; simpl.
    rewrite IH by exact Hn'; reflexivity.
  Qed.

  Lemma tuples_len n (tables : list (list (list T))) : length (tuples n tables) = n.
  Proof. unfold tuples; rewrite map_length, seq_length; reflexivity. Qed.

  (** selecting the same indices in every Serie *)
  Lemma take_all_select ss kts n bs :
    @reprs T ss kts -> same_count (Z.of_nat n) kts ->
    mapO (fun s => take_v s (select (seqZ 0 n) bs)) ss
    = Ok (map (fun kt => mk (fst kt) (select (snd kt) bs) 3) kts).
  Proof.
    intros Hr Hn; induction Hr as [|s kt ss kts Hs Hr IH]; [reflexivity|].
    inversion Hn as [|kt0 kts0 Hl Hn']; subst; simpl.
    pose proof (take_v_select s _ _ bs Hs) as E.
    unfold enum in E; change 0 with (Z.of_nat 0) in E; rewrite map_snd_enum in E.
    replace (length (snd kt)) with n in E by (unfold len in Hl; lia).
    rewrite E; simpl; rewrite IH by exact Hn'; reflexivity.
  Qed.
End FunctionalFacts.
