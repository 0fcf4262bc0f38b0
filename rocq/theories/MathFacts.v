(** * Lemmas on src/functional/math. *)
From Verif Require Import Base Num Serie Spec BaseFacts SerieFacts Functional FunctionalFacts Mathf.

Section Map2.
  Context {A B C : Type} (f : A -> B -> C).
  Lemma map2_length a b : length a = length b -> length (map2 f a b) = length a.
  Proof. revert b; induction a as [|x a IH]; intros [|y b]; simpl; intros E; try discriminate; auto. Qed.
  Lemma len_map2 a b : len a = len b -> len (map2 f a b) = len a.
  Proof. unfold len; intros E; rewrite map2_length by lia; reflexivity. Qed.
  Lemma nth_error_map2 a b i x y : nth_error a i = Some x -> nth_error b i = Some y -> nth_error (map2 f a b) i = Some (f x y).
  Proof. revert b i; induction a as [|x0 a IH]; intros [|y0 b] [|i]; simpl; try discriminate; [congruence|apply IH]. Qed.
  Lemma nth_error_map2_inv a b i z : nth_error (map2 f a b) i = Some z ->
    exists x y, nth_error a i = Some x /\ nth_error b i = Some y /\ z = f x y.
  Proof.
    revert b i; induction a as [|x0 a IH]; intros [|y0 b] [|i]; simpl; try discriminate; [|apply IH].
    intros E; injection E as <-; eauto.
  Qed.
End Map2.

Lemma rows_map2 {T} (f : T -> T -> T) k ra rb :
  rows_of_size k ra -> rows_of_size k rb -> rows_of_size k (map2 (map2 f) ra rb).
Proof.
  intros Ha; revert rb; induction Ha as [|r ra Hr Ha IH]; intros [|r' rb] Hb; simpl; try constructor; inversion Hb; subst.
  - rewrite len_map2; congruence.
  - apply IH; assumption.
Qed.
Lemma map2_col {T} (f : T -> T -> T) xs ys : map2 (map2 f) (col xs) (col ys) = col (map2 f xs ys).
Proof. revert ys; induction xs as [|x xs IH]; intros [|y ys]; simpl; [reflexivity..|]; f_equal; apply IH. Qed.
Lemma rows_map {T} (f : T -> T) k rows : rows_of_size k rows -> rows_of_size k (map (map f) rows).
Proof. induction 1; simpl; constructor; [rewrite len_map; assumption|assumption]. Qed.
Lemma map_col {T} (f : T -> T) xs : map (map f) (col xs) = col (map f xs).
Proof. induction xs as [|x xs IH]; simpl; [reflexivity|]; f_equal; exact IH. Qed.
Lemma nth_error_len {A} (l : list A) i : (i < length l)%nat -> exists x, nth_error l i = Some x.
Proof. intros Hi; destruct (nth_error l i) eqn:E; eauto; apply nth_error_None in E; lia. Qed.
Lemma nth_error_lt {A} (l : list A) i x : nth_error l i = Some x -> (i < length l)%nat.
Proof. intros E; apply nth_error_Some; congruence. Qed.

Section Facts.
  Context {T : Type} {NT : Num T}.

  Lemma upd_each_from (f : Z -> T -> outcome T) : forall todo done out,
    length out = length todo ->
    (forall j x y, nth_error todo j = Some x -> nth_error out j = Some y -> f (Z.of_nat (length done + j)) x = Ok y) ->
    foldO (fun r k => let* x := rd r k in let* y := f k x in wr r k y) (seqZ (length done) (length todo)) (done ++ todo)
    = Ok (done ++ out).
  Proof.
    induction todo as [|x todo IH]; intros done [|y out] Hl Hf; try discriminate; [reflexivity|].
    simpl length; rewrite seqZ_S; simpl.
    rewrite (rd_nat _ _ x) by (rewrite nth_error_app2, Nat.sub_diag by lia; reflexivity); simpl.
    pose proof (Hf O x y eq_refl eq_refl) as E0; rewrite Nat.add_0_r in E0; rewrite E0; simpl.
    rewrite wr_ok by (rewrite len_app, len_cons; unfold len; lia).
    rewrite Nat2Z.id, upd_nat_mid; simpl.
    specialize (IH (done ++ [y]) out); rewrite app_length in IH; simpl in IH; rewrite Nat.add_1_r, <- !app_assoc in IH.
    apply IH; [simpl in Hl; lia|].
    intros j a b Ha Hb; replace (S (length done) + j)%nat with (length done + S j)%nat by lia; apply Hf; assumption.
  Qed.

  Lemma upd_each_ok (f : Z -> T -> outcome T) r out :
    length out = length r ->
    (forall j x y, nth_error r j = Some x -> nth_error out j = Some y -> f (Z.of_nat j) x = Ok y) ->
    upd_each (len r) f r = Ok out.
  Proof.
    intros Hl Hf; unfold upd_each; rewrite iota_len.
    apply (upd_each_from f r [] out Hl); exact Hf.
  Qed.
  Lemma upd_each_map (f : T -> T) r : upd_each (len r) (fun _ x => Ok (f x)) r = Ok (map f r).
  Proof.
    apply upd_each_ok; [apply map_length|]; intros j x y Hx Hy.
    rewrite nth_error_map, Hx in Hy; injection Hy as <-; reflexivity.
  Qed.
  Lemma upd_each_map2 (op : T -> T -> T) r v : len v = len r ->
    upd_each (len r) (fun k x => let* y := rd v k in Ok (op x y)) r = Ok (map2 op r v).
  Proof.
    intros Hl; apply upd_each_ok; [apply map2_length; unfold len in Hl; lia|]; intros j x y Hx Hy.
    apply nth_error_map2_inv in Hy; destruct Hy as (x' & z & Hx' & Hz & ->).
    rewrite (rd_nat _ _ _ Hz); simpl; congruence.
  Qed.

  Lemma rows_nth_len k (rows : list (list T)) j r : rows_of_size k rows -> nth_error rows j = Some r -> len r = k.
  Proof. intros Hr Hj; unfold rows_of_size in Hr; rewrite Forall_forall in Hr; apply Hr; eapply nth_error_In; exact Hj. Qed.

  (** calls whose result depends on the argument and the index only *)
  Lemma calls_index {A B} (f : A -> Z -> M unit B) (l : list A) (ys : list B) :
    length ys = length l ->
    (forall j x y, nth_error l j = Some x -> nth_error ys j = Some y -> f x (Z.of_nat j) tt = (Ok y, tt)) ->
    calls f (enum l) tt ys tt.
  Proof.
    intros Hl Hf; unfold enum.
    assert (G : forall a l ys, length ys = length l ->
      (forall j x y, nth_error l j = Some x -> nth_error ys j = Some y -> f x (Z.of_nat (a + j)) tt = (Ok y, tt)) ->
      calls f (enum_from (Z.of_nat a) l) tt ys tt).
    { clear; intros a l; revert a; induction l as [|x l IH]; intros a [|y ys] Hl Hf; try discriminate; simpl; [constructor|].
      econstructor.
      - rewrite <- (Nat.add_0_r a) at 1; apply Hf; reflexivity.
      - replace (Z.of_nat a + 1) with (Z.of_nat (S a)) by lia; apply IH; [simpl in Hl; lia|].
        intros j u v Hu Hv; replace (S a + j)%nat with (a + S j)%nat by lia; apply Hf; assumption. }
    apply (G O); assumption.
  Qed.

  Lemma run_map_vv (cb : list T -> Z -> M unit (list T)) s k rows k1 ys :
    repr s k rows -> rows <> [] -> 1 <= k1 < 2147483648 -> length ys = length rows -> rows_of_size k1 ys ->
    (forall j r y, nth_error rows j = Some r -> nth_error ys j = Some y -> cb r (Z.of_nat j) tt = (Ok y, tt)) ->
    run (map_vv cb s) = Ok (mk k1 ys 3).
  Proof.
    intros Hs Hne Hk Hl Hr Hf; unfold run, map_vv; rewrite (repr_count _ _ _ Hs).
    rewrite (map_arr_ok _ _ rows k1 tt ys tt); auto.
    - apply reads_array with (k := k); exact Hs.
    - unfold repr in Hs; tauto.
    - apply calls_index; auto.
  Qed.
  Lemma map_vv_ext (cb cb' : list T -> Z -> M unit (list T)) s k rows :
    repr s k rows -> (forall r i st, len r = k -> cb r i st = cb' r i st) -> run (map_vv cb s) = run (map_vv cb' s).
  Proof.
    intros Hs Hc; unfold run, map_vv; rewrite (repr_count _ _ _ Hs).
    pose proof (repr_rows _ _ _ Hs) as Hr; pose proof (reads_array _ _ _ Hs) as Hg; destruct rows as [|r rows]; [reflexivity|].
    rewrite !(map_arr_unfold _ _ _ _ _ Hg); f_equal.
    inversion Hr as [|? ? Lr Hr']; subst.
    apply mbind_cong; [apply Hc; reflexivity|]; intros f st; apply mbind_cong; [|reflexivity].
    apply foldM_ext; intros a [r' i] st' Hin; cbn [fst snd]; apply mbind_cong; [|reflexivity].
    apply Hc; unfold rows_of_size in Hr'; rewrite Forall_forall in Hr'; apply Hr'.
    rewrite <- (map_fst_enum 1 rows); change r' with (fst (r', i)); apply in_map; exact Hin.
  Qed.
  Lemma run_map_vv_empty (cb : list T -> Z -> M unit (list T)) s k : repr s k [] -> run (map_vv cb s) = Ok (mk 0 [] 3).
  Proof. intros Hs; unfold run, map_vv; rewrite (repr_count _ _ _ Hs); reflexivity. Qed.
  Lemma run_map_ss (cb : T -> Z -> M unit T) s xs ys :
    repr s 1 (col xs) -> length ys = length xs ->
    (forall j x y, nth_error xs j = Some x -> nth_error ys j = Some y -> cb x (Z.of_nat j) tt = (Ok y, tt)) ->
    run (map_ss cb s) = Ok (mk 1 (col ys) 3).
  Proof.
    intros Hs Hl Hf; unfold run, map_ss; rewrite (repr_count _ _ _ Hs), len_col.
    rewrite (map_num_ok _ _ xs tt ys tt); auto.
    - apply reads_scalar; exact Hs.
    - destruct Hs as (_ & _ & _ & _ & _ & Hn & _); rewrite len_col in Hn; exact Hn.
    - apply calls_index; auto.
  Qed.

  Lemma get_array_nth (s : Serie T) k rows (j : nat) r : repr s k rows -> nth_error rows j = Some r -> get_array s (Z.of_nat j) = Ok r.
  Proof. intros Hs Hj; exact (repr_nth s k rows Hs j r Hj). Qed.
  Lemma value_nth (s : Serie T) k rows (j : nat) r : repr s k rows -> nth_error rows j = Some r -> value s (Z.of_nat j) = Ok r.
  Proof. intros Hs Hj; exact (repr_nth_value s k rows Hs j r Hj). Qed.
  Lemma get_double_nth (s : Serie T) xs (j : nat) x : repr s 1 (col xs) -> nth_error xs j = Some x -> get_double s (Z.of_nat j) = Ok x.
  Proof. intros Hs Hj; exact (repr_nth_scalar s xs Hs j x Hj). Qed.
  Lemma scalar_nth (s : Serie T) xs (j : nat) x : repr s 1 (col xs) -> nth_error xs j = Some x -> scalar s (Z.of_nat j) = Ok x.
  Proof. intros Hs Hj; exact (repr_nth_scalar' s xs Hs j x Hj). Qed.
  Lemma rows_col_1 (rows : list (list T)) : rows_of_size 1 rows -> exists xs, rows = col xs.
  Proof. intros Hr; exists (concat rows); apply rows_size1_col; exact Hr. Qed.
  Lemma nth_error_col (xs : list T) j : nth_error (col xs) j = option_map (fun x => [x]) (nth_error xs j).
  Proof. apply nth_error_map. Qed.

  Lemma pointwise_ok (op : T -> T -> T) s1 s2 k ra rb :
    repr s1 k ra -> repr s2 k rb -> len ra = len rb ->
    pointwise op s1 s2 = Ok (mk k (map2 (map2 op) ra rb) 3).
  Proof.
    intros H1 H2 Hl; unfold pointwise.
    rewrite (repr_itemSize _ _ _ H1), (repr_itemSize _ _ _ H2), (repr_count _ _ _ H1), (repr_count _ _ _ H2), Hl, !Z.eqb_refl.
    cbn [negb orb].
    assert (Hk : 0 <= k < 2147483648) by (unfold repr in H1; tauto).
    assert (Hn : len rb < 4294967296) by (unfold repr in H2; tauto).
    assert (Hm : k * len rb < 4294967296) by (unfold repr in H2; tauto).
    rewrite s32_small by lia.
    destruct (Z.eqb_spec k 1) as [->|Hk1].
    - destruct (rows_col_1 ra (repr_rows _ _ _ H1)) as [xs ->]; destruct (rows_col_1 rb (repr_rows _ _ _ H2)) as [ys ->].
      rewrite !len_col in *.
      rewrite map2_col.
      replace (len ys) with (len (map2 op xs ys)) by (rewrite len_map2; congruence).
      rewrite (foldO_ext _ (fun r i => let* v := (let* x := get_double s1 i in let* y := get_double s2 i in Ok (op x y)) in set_double r i v)).
      + apply fill_serie_n1; [rewrite len_map2; lia|].
        intros j z Hz; apply nth_error_map2_inv in Hz; destruct Hz as (x & y & Hx & Hy & ->).
        rewrite (get_double_nth _ _ _ _ H1 Hx), (get_double_nth _ _ _ _ H2 Hy); reflexivity.
      + intros r i _; destruct (get_double s1 i); simpl; try reflexivity; destruct (get_double s2 i); reflexivity.
    - replace (len rb) with (len (map2 (map2 op) ra rb)) in * by (rewrite len_map2; congruence).
      rewrite (foldO_ext _ (fun r i => let* v := (let* v1 := get_array s1 i in let* v2 := get_array s2 i in
          upd_each k (fun j _ => let* x := rd v1 j in let* y := rd v2 j in Ok (op x y)) (replicate k n0)) in set_array r i v)).
      + apply fill_serie_n; auto.
        * apply rows_map2; [apply (repr_rows _ _ _ H1)|apply (repr_rows _ _ _ H2)].
        * intros j z Hz; apply nth_error_map2_inv in Hz; destruct Hz as (x & y & Hx & Hy & ->).
          rewrite (get_array_nth _ _ _ _ _ H1 Hx), (get_array_nth _ _ _ _ _ H2 Hy); cbn [obind].
          pose proof (rows_nth_len _ _ _ _ (repr_rows _ _ _ H1) Hx) as Lx.
          pose proof (rows_nth_len _ _ _ _ (repr_rows _ _ _ H2) Hy) as Ly.
          replace k with (len (replicate k (@n0 T NT))) at 1 by (apply len_replicate; lia).
          assert (Lr : length (replicate k (@n0 T NT)) = length x).
          { pose proof (len_replicate (@n0 T NT) k ltac:(lia)) as E; unfold len in *; lia. }
          apply upd_each_ok; [rewrite Lr; apply map2_length; unfold len in *; lia|].
          intros i _ w _ Hw; apply nth_error_map2_inv in Hw; destruct Hw as (u & v & Hu & Hv & ->).
          rewrite (rd_nat _ _ _ Hu), (rd_nat _ _ _ Hv); reflexivity.
      + intros r i _; destruct (get_array s1 i); simpl; try reflexivity; destruct (get_array s2 i); reflexivity.
  Qed.
End Facts.
