(** * Lemmas on the Serie model. *)
From Verif Require Import Base Num Serie Spec BaseFacts.

Ltac Zify.zify_post_hook ::= Z.div_mod_to_equations.

(** ** block reads and writes *)
Lemma seqZ_shift a n : seqZ a n = map (fun j => Z.of_nat a + j) (seqZ 0 n).
Proof.
  unfold seqZ; rewrite map_map.
  revert a; induction n as [|n IH]; intros a; [reflexivity|].
  simpl; f_equal; [lia|].
  rewrite IH; rewrite <- (seq_shift n 0), map_map; apply map_ext; intros x; lia.
Qed.

Lemma mapO_map {A B C} (f : B -> outcome C) (g : A -> B) l :
  mapO f (map g l) = mapO (fun x => f (g x)) l.
Proof. induction l as [|x l IH]; [reflexivity|]; simpl; rewrite IH; reflexivity. Qed.

Lemma read_block {A} (P r Q : list A) :
  mapO (fun j => rd (P ++ r ++ Q) (len P + j)) (iota (len r)) = Ok r.
Proof.
  pose proof (mapO_rd_seqZ P r Q) as E.
  rewrite seqZ_shift, mapO_map in E; rewrite iota_len; exact E.
Qed.

Lemma write_block {A} (P old new Q : list A) :
  length new = length old ->
  foldO (fun d j => let* x := rd new j in wr d (len P + j) x) (iota (len new)) (P ++ old ++ Q)
  = Ok (P ++ new ++ Q).
Proof.
  intros Hl; rewrite iota_len.
  assert (G : forall todo done oldr,
    new = done ++ todo -> length oldr = length todo ->
    foldO (fun d j => let* x := rd new j in wr d (len P + j) x)
      (seqZ (length done) (length todo)) (P ++ done ++ oldr ++ Q) = Ok (P ++ new ++ Q)).
  { induction todo as [|x todo IH]; intros done oldr Hn Hlen.
    - destruct oldr; [|discriminate]. rewrite app_nil_r in Hn; subst done; reflexivity.
    - destruct oldr as [|o oldr]; [discriminate|].
      simpl length; rewrite seqZ_S; simpl.
      rewrite (rd_nat _ _ x) by (rewrite Hn, nth_error_app2, Nat.sub_diag by lia; reflexivity).
      simpl; rewrite wr_ok by (rewrite !len_app, len_cons; unfold len; lia).
      simpl.
      replace (Z.to_nat (len P + Z.of_nat (length done))) with (length (P ++ done))
        by (rewrite app_length; unfold len; lia).
      rewrite app_assoc, upd_nat_mid.
      specialize (IH (done ++ [x]) oldr).
      rewrite app_length in IH; simpl in IH; rewrite Nat.add_1_r in IH.
      rewrite <- !app_assoc in *; simpl in IH.
      apply IH; [exact Hn|simpl in Hlen; lia]. }
  exact (G new [] old eq_refl (eq_sym Hl)).
Qed.

(** ** rows *)
Lemma split_row {T} (rows : list (list T)) i r :
  nth_error rows i = Some r -> exists pre post, rows = pre ++ r :: post /\ length pre = i.
Proof. intros E; apply nth_error_split in E; destruct E as (a & b & -> & <-); eauto. Qed.

Lemma rows_nth {T} k (rows : list (list T)) i r :
  rows_of_size k rows -> nth_error rows i = Some r -> len r = k.
Proof.
  intros Hr E; unfold rows_of_size in Hr; rewrite Forall_forall in Hr.
  apply Hr; eapply nth_error_In; exact E.
Qed.

Lemma rows_upd {T} k (rows : list (list T)) i v :
  rows_of_size k rows -> len v = k -> rows_of_size k (upd_nat rows i v).
Proof.
  intros Hr Hv; revert i; induction Hr as [|r rows Hx Hr IH]; intros [|i]; simpl; constructor; auto.
  apply IH.
Qed.

Lemma nth_error_ext {A} (l l' : list A) : (forall i, nth_error l i = nth_error l' i) -> l = l'.
Proof.
  revert l'; induction l as [|x l IH]; intros [|y l'] E; auto.
  - specialize (E O); discriminate.
  - specialize (E O); discriminate.
  - pose proof (E O) as E0; injection E0 as ->; f_equal.
    apply IH; intros i; exact (E (S i)).
Qed.

Section Facts.
  Context {T : Type} `{NT : Num T}.
  Implicit Types (s : Serie T) (rows : list (list T)).

  Lemma repr_mk k rows dim :
    rows_of_size k rows -> 0 <= k < 2147483648 -> len rows < 4294967296 ->
    k * len rows < 4294967296 -> repr (mk k rows dim) k rows.
  Proof.
    intros H1 H2 H3 H4; repeat split; simpl; auto; try lia.
    exists []; rewrite app_nil_r; reflexivity.
  Qed.

  Lemma repr_size s k rows : repr s k rows -> size s = k * len rows.
  Proof.
    intros (Hk & Hc & _ & _ & Hb & Hn & Hm); unfold size; rewrite Hc, Hk.
    pose proof (len_nonneg rows); rewrite u32_small; nia.
  Qed.
  Lemma repr_count s k rows : repr s k rows -> count s = len rows.
  Proof. intros (Hk & Hc & _); exact Hc. Qed.
  Lemma repr_itemSize_ s k rows : repr s k rows -> itemSize_ s = k.
  Proof. intros (Hk & Hc & _); exact Hk. Qed.
  Lemma repr_itemSize s k rows : repr s k rows -> itemSize s = k.
  Proof. intros (Hk & Hc & _ & _ & Hb & _); unfold itemSize; rewrite Hk, u32_small; lia. Qed.
  Lemma repr_rows s k rows : repr s k rows -> rows_of_size k rows.
  Proof. intros (_ & _ & _ & Hr & _); exact Hr. Qed.
  Lemma repr_len_data s k rows : repr s k rows -> k * len rows <= len (s_ s).
  Proof.
    intros (_ & _ & (t & Hd) & Hr & _); rewrite Hd, len_app, (len_concat k) by exact Hr.
    pose proof (len_nonneg t); lia.
  Qed.

  Lemma read_item_repr s k rows i :
    repr s k rows -> 0 <= i < len rows -> read_item s i = rd rows i.
  Proof.
    intros (Hk & Hc & (t & Hd) & Hr & Hb & Hn & Hm) Hi.
    destruct (rd_in_range rows i Hi) as (r & -> & E).
    pose proof (rows_nth k rows _ r Hr E) as Hlr.
    destruct (split_row _ _ _ E) as (pre & post & Hrows & Hpre).
    unfold read_item; rewrite Hk; destruct (Z.ltb_spec k 0) as [|_]; [lia|].
    replace (iota k) with (iota (len r)) by (rewrite Hlr; reflexivity).
    rewrite <- (read_block (concat pre) r (concat post ++ t)).
    apply mapO_ext; intros j Hj; apply in_iota in Hj; rewrite Hlr in Hj.
    assert (Hlp : len (concat pre) = k * i).
    { rewrite (len_concat k).
      - f_equal; unfold len; lia.
      - rewrite Hrows in Hr; apply rows_app in Hr; tauto. }
    assert (Hb1 : 0 <= i * k) by (apply Z.mul_nonneg_nonneg; lia).
    assert (Hb2 : i * k + k <= k * len rows) by nia.
    rewrite Hlp, (u32_small (i * k)), u32_small by lia.
    rewrite Hd, Hrows, concat_app; simpl; rewrite <- !app_assoc.
    f_equal; lia.
  Qed.

  Lemma value_repr s k rows i : repr s k rows -> 0 <= i < len rows -> value s i = rd rows i.
  Proof. apply read_item_repr. Qed.

  Lemma get_array_repr s k rows i :
    repr s k rows -> 0 <= i < len rows -> get_array s i = rd rows i.
  Proof.
    intros Hs Hi; unfold get_array.
    destruct (Z.eqb_spec (itemSize_ s) 1) as [E1|_]; [|eapply read_item_repr; eassumption].
    destruct Hs as (Hk & Hc & (t & Hd) & Hr & Hb & Hn & Hm).
    rewrite E1 in Hk; subst k.
    pose proof (rows_size1_col rows Hr) as Hcol.
    remember (concat rows) as xs eqn:Hxs; clear Hxs; subst rows.
    rewrite len_col in Hi; unfold col; rewrite rd_map, Hd, !rd_nth_error.
    destruct (Z.leb_spec 0 i); [|reflexivity].
    rewrite nth_error_app1 by (unfold len in Hi; lia); reflexivity.
  Qed.

  Lemma get_double_repr s xs i :
    repr s 1 (col xs) -> 0 <= i < len xs -> get_double s i = rd xs i.
  Proof.
    intros (Hk & Hc & (t & Hd) & Hr & Hb & Hn & Hm) Hi; unfold get_double.
    rewrite Hd, concat_col.
    destruct (Z.leb_spec (len (xs ++ t)) i) as [Hle|_];
      [rewrite len_app in Hle; pose proof (len_nonneg t); lia|].
    rewrite !rd_nth_error; destruct (Z.leb_spec 0 i); [|reflexivity].
    rewrite nth_error_app1 by (unfold len in Hi; lia); reflexivity.
  Qed.

  Lemma scalar_repr s xs i :
    repr s 1 (col xs) -> 0 <= i < len xs -> scalar s i = rd xs i.
  Proof.
    intros Hs Hi; unfold scalar; rewrite (repr_size s 1 (col xs) Hs), len_col.
    destruct (Z.ltb_spec (1 * len xs) i) as [|_]; [lia|].
    destruct Hs as (Hk & Hc & (t & Hd) & Hr & Hb & Hn & Hm).
    rewrite Hd, concat_col, !rd_nth_error; destruct (Z.leb_spec 0 i); [|reflexivity].
    rewrite nth_error_app1 by (unfold len in Hi; lia); reflexivity.
  Qed.

  (** raw component access through [get<double>] *)
  Lemma get_double_raw s i :
    get_double s i = if (0 <=? i) then
                       (if i <? len (s_ s) then rd (s_ s) i else Throw InvalidArgument) else UB.
  Proof.
    unfold get_double; pose proof (len_nonneg (s_ s)).
    destruct (Z.leb_spec (len (s_ s)) i), (Z.leb_spec 0 i), (Z.ltb_spec i (len (s_ s)));
      try reflexivity; try lia.
    apply rd_out; lia.
  Qed.

  (** writing an item *)
  Lemma write_item_repr s k rows i v t :
    repr s k rows -> s_ s = concat rows ++ t -> 0 <= i < len rows -> len v = k ->
    write_item s i v = Ok (with_data s (concat (upd_nat rows (Z.to_nat i) v) ++ t)).
  Proof.
    intros (Hk & Hc & _ & Hr & Hb & Hn & Hm) Hd Hi Hv.
    destruct (rd_in_range rows i Hi) as (r & _ & E).
    pose proof (rows_nth k rows _ r Hr E) as Hlr.
    destruct (split_row _ _ _ E) as (pre & post & Hrows & Hpre).
    assert (Hlp : len (concat pre) = k * i).
    { rewrite (len_concat k).
      - f_equal; unfold len; lia.
      - rewrite Hrows in Hr; apply rows_app in Hr; tauto. }
    unfold write_item; rewrite Hk, Hd.
    assert (Hupd : upd_nat rows (Z.to_nat i) v = pre ++ v :: post)
      by (rewrite <- Hpre, Hrows; apply upd_nat_mid).
    rewrite Hupd, Hrows, !concat_app; simpl; rewrite <- !app_assoc.
    pose proof (write_block (concat pre) r v (concat post ++ t)) as W.
    rewrite Hv in W.
    rewrite (foldO_ext _ (fun d j => let* x := rd v j in wr d (len (concat pre) + j) x));
      [rewrite W; [reflexivity|unfold len in *; lia]|].
    intros d j Hj; apply in_iota in Hj.
    assert (Hb1 : 0 <= i * k) by (apply Z.mul_nonneg_nonneg; lia).
    assert (Hb2 : i * k + k <= k * len rows) by nia.
    rewrite Hlp, (u32_small (i * k)), u32_small by lia.
    destruct (rd v j); simpl; [f_equal; lia|reflexivity|reflexivity].
  Qed.

  Lemma repr_with_data s k rows rows' t :
    repr s k rows -> len rows' = len rows -> rows_of_size k rows' ->
    repr (with_data s (concat rows' ++ t)) k rows'.
  Proof.
    intros (Hk & Hc & _ & Hr & Hb & Hn & Hm) Hl Hr'.
    repeat split; simpl; auto; try lia. exists t; reflexivity.
  Qed.

  Lemma set_array_repr s k rows i v t :
    repr s k rows -> s_ s = concat rows ++ t -> 0 <= i < len rows -> len v = k ->
    set_array s i v = Ok (with_data s (concat (upd_nat rows (Z.to_nat i) v) ++ t)).
  Proof.
    intros Hs Hd Hi Hv; unfold set_array.
    pose proof Hs as (Hk & Hc & _ & Hr & Hb & Hn & Hm).
    rewrite Hc, Hk; destruct (Z.leb_spec (len rows) i) as [|_]; [lia|].
    rewrite u64_small by lia; destruct (Z.eqb_spec (len v) k) as [_|]; [|lia].
    simpl; eapply write_item_repr; eassumption.
  Qed.

  Lemma set_array_mk k rows dim i v :
    repr (mk k rows dim) k rows -> 0 <= i < len rows -> len v = k ->
    set_array (mk k rows dim) i v = Ok (mk k (upd_nat rows (Z.to_nat i) v) dim).
  Proof.
    intros Hs Hi Hv; rewrite (set_array_repr (mk k rows dim) k rows i v []); auto.
    - unfold with_data, mk; simpl; rewrite app_nil_r, len_upd; reflexivity.
    - simpl; rewrite app_nil_r; reflexivity.
  Qed.

  Lemma set_double_mk (xs : list T) dim i x :
    0 <= i < len xs ->
    set_double (mk 1 (col xs) dim) i x = Ok (mk 1 (col (upd_nat xs (Z.to_nat i) x)) dim).
  Proof.
    intros Hi; unfold set_double; simpl; rewrite concat_col.
    destruct (Z.leb_spec (len xs) i) as [|_]; [lia|].
    rewrite wr_ok by lia; simpl; unfold with_data, mk; simpl.
    rewrite concat_col, !len_col, len_upd; reflexivity.
  Qed.

  (** fresh Series *)
  Definition zrow (k : Z) : list T := repeat n0 (Z.to_nat k).
  Definition zrows (k n : Z) : list (list T) := repeat (zrow k) (Z.to_nat n).

  Lemma concat_zrows k n : 0 <= k -> 0 <= n -> concat (zrows k n) = repeat n0 (Z.to_nat (n * k)).
  Proof.
    intros Hk Hn; unfold zrows, zrow.
    rewrite Z2Nat.inj_mul by lia.
    induction (Z.to_nat n) as [|m IH]; [reflexivity|].
    simpl; rewrite IH, <- repeat_app; reflexivity.
  Qed.
  Lemma rows_zrows k n : 0 <= k -> rows_of_size k (zrows k n).
  Proof.
    intros Hk; unfold zrows, rows_of_size; apply Forall_forall; intros r Hr.
    apply repeat_spec in Hr; subst r; unfold zrow; rewrite len_repeat; lia.
  Qed.
  Lemma len_zrows k n : 0 <= n -> len (zrows k n) = n.
  Proof. intros Hn; unfold zrows; rewrite len_repeat; lia. Qed.

  Lemma serie_n_mk k n dim :
    0 <= k -> 0 <= n -> k * n < 4294967296 ->
    @serie_n T NT k n dim = mk k (zrows k n) dim.
  Proof.
    intros Hk Hn Hm; unfold serie_n, mk.
    rewrite concat_zrows, len_zrows by lia.
    rewrite u32_small by lia; reflexivity.
  Qed.

  Lemma zrows_1 n : zrows 1 n = col (repeat (@n0 T NT) (Z.to_nat n)).
  Proof. unfold zrows, zrow, col; induction (Z.to_nat n) as [|m IH]; [reflexivity|]; simpl; rewrite <- IH; reflexivity. Qed.

  (** filling a Serie item by item *)
  Lemma fill_array (g : Z -> outcome (list T)) k dim : 0 <= k < 2147483648 ->
    forall todo done old,
    (forall j r, nth_error todo j = Some r -> g (Z.of_nat (length done + j)) = Ok r) ->
    length old = length todo -> rows_of_size k (done ++ old) -> rows_of_size k todo ->
    len (done ++ old) < 4294967296 -> k * len (done ++ old) < 4294967296 ->
    foldO (fun r i => let* v := g i in set_array r i v) (seqZ (length done) (length todo))
      (mk k (done ++ old) dim) = Ok (mk k (done ++ todo) dim).
  Proof.
    intros Hk; induction todo as [|x todo IH]; intros done old Hg Hl Ho Ht Hn Hm.
    - destruct old; [|discriminate]; reflexivity.
    - destruct old as [|o old]; [discriminate|].
      simpl length; rewrite seqZ_S; simpl.
      rewrite <- (Nat.add_0_r (length done)) at 1; rewrite (Hg O x eq_refl); simpl.
      inversion Ht as [|? ? Hx Ht']; subst.
      rewrite set_array_mk; auto.
      + rewrite Nat2Z.id, upd_nat_mid; simpl.
        specialize (IH (done ++ [x]) old).
        rewrite app_length in IH; simpl in IH; rewrite Nat.add_1_r in IH.
        rewrite <- !app_assoc in IH; simpl in IH; apply IH; auto.
        * intros j r Hj; replace (S (length done + j)) with (length done + S j)%nat by lia.
          apply Hg; exact Hj.
        * apply rows_app in Ho; destruct Ho as [Ho1 Ho2]; apply rows_app; split; [exact Ho1|].
          inversion Ho2; subst; constructor; auto.
        * rewrite !len_app, !len_cons in *; lia.
        * rewrite !len_app, !len_cons in *; lia.
      + apply repr_mk; auto.
      + rewrite len_app, len_cons; unfold len; lia.
  Qed.

  Lemma fill_serie_n (g : Z -> outcome (list T)) k dim rows :
    0 <= k < 2147483648 -> rows_of_size k rows -> len rows < 4294967296 ->
    k * len rows < 4294967296 ->
    (forall j r, nth_error rows j = Some r -> g (Z.of_nat j) = Ok r) ->
    foldO (fun r i => let* v := g i in set_array r i v) (iota (len rows)) (serie_n k (len rows) dim)
    = Ok (mk k rows dim).
  Proof.
    intros Hk Hr Hn Hm Hg; rewrite serie_n_mk by (pose proof (len_nonneg rows); lia).
    rewrite iota_len.
    pose proof (fill_array g k dim Hk rows [] (zrows k (len rows))) as E; simpl in E.
    pose proof (len_nonneg rows) as Hp.
    apply E; auto.
    - unfold zrows; rewrite repeat_length; unfold len; lia.
    - apply rows_zrows; lia.
    - rewrite len_zrows; lia.
    - rewrite len_zrows; lia.
  Qed.

  Lemma fill_scalar (g : Z -> outcome T) dim :
    forall todo done old,
    (forall j x, nth_error todo j = Some x -> g (Z.of_nat (length done + j)) = Ok x) ->
    length old = length todo ->
    foldO (fun r i => let* v := g i in set_double r i v) (seqZ (length done) (length todo))
      (mk 1 (col (done ++ old)) dim) = Ok (mk 1 (col (done ++ todo)) dim).
  Proof.
    induction todo as [|x todo IH]; intros done old Hg Hl.
    - destruct old; [|discriminate]; reflexivity.
    - destruct old as [|o old]; [discriminate|].
      simpl length; rewrite seqZ_S; simpl.
      rewrite <- (Nat.add_0_r (length done)) at 1; rewrite (Hg O x eq_refl); simpl.
      rewrite set_double_mk by (rewrite len_app, len_cons; unfold len; lia).
      rewrite Nat2Z.id, upd_nat_mid; simpl.
      specialize (IH (done ++ [x]) old).
      rewrite app_length in IH; simpl in IH; rewrite Nat.add_1_r in IH.
      rewrite <- !app_assoc in IH; simpl in IH; apply IH; auto.
      intros j r Hj; replace (S (length done + j)) with (length done + S j)%nat by lia.
      apply Hg; exact Hj.
  Qed.

  Lemma fill_serie_n1 (g : Z -> outcome T) dim xs :
    len xs < 4294967296 ->
    (forall j x, nth_error xs j = Some x -> g (Z.of_nat j) = Ok x) ->
    foldO (fun r i => let* v := g i in set_double r i v) (iota (len xs)) (serie_n 1 (len xs) dim)
    = Ok (mk 1 (col xs) dim).
  Proof.
    intros Hn Hg; pose proof (len_nonneg xs) as Hp.
    rewrite serie_n_mk by lia. rewrite zrows_1, iota_len.
    pose proof (fill_scalar g dim xs [] (repeat n0 (Z.to_nat (len xs)))) as E; simpl in E.
    apply E; auto. rewrite repeat_length; unfold len; lia.
  Qed.

  (** reading all items *)
  Lemma repr_nth s k rows : repr s k rows ->
    forall j r, nth_error rows j = Some r -> get_array s (Z.of_nat (0 + j)) = Ok r.
  Proof.
    intros Hs j r E; simpl; rewrite (get_array_repr s k rows); auto.
    - apply rd_nat; exact E.
    - split; [lia|]. assert (Hne : nth_error rows j <> None) by congruence.
      apply nth_error_Some in Hne; unfold len; lia.
  Qed.
  Lemma repr_nth_value s k rows : repr s k rows ->
    forall j r, nth_error rows j = Some r -> value s (Z.of_nat (0 + j)) = Ok r.
  Proof.
    intros Hs j r E; simpl; rewrite (value_repr s k rows); auto.
    - apply rd_nat; exact E.
    - split; [lia|]. assert (Hne : nth_error rows j <> None) by congruence.
      apply nth_error_Some in Hne; unfold len; lia.
  Qed.
  Lemma repr_nth_scalar s xs : repr s 1 (col xs) ->
    forall j x, nth_error xs j = Some x -> get_double s (Z.of_nat (0 + j)) = Ok x.
  Proof.
    intros Hs j r E; simpl; rewrite (get_double_repr s xs); auto.
    - apply rd_nat; exact E.
    - split; [lia|]. assert (Hne : nth_error xs j <> None) by congruence.
      apply nth_error_Some in Hne; unfold len; lia.
  Qed.
  Lemma repr_nth_scalar' s xs : repr s 1 (col xs) ->
    forall j x, nth_error xs j = Some x -> scalar s (Z.of_nat (0 + j)) = Ok x.
  Proof.
    intros Hs j r E; simpl; rewrite (scalar_repr s xs); auto.
    - apply rd_nat; exact E.
    - split; [lia|]. assert (Hne : nth_error xs j <> None) by congruence.
      apply nth_error_Some in Hne; unfold len; lia.
  Qed.

  (** [repr] determines its rows *)
  Lemma repr_fun s k rows k' rows' : repr s k rows -> repr s k' rows' -> k = k' /\ rows = rows'.
  Proof.
    intros H1 H2.
    assert (Hk : k = k') by (destruct H1 as [<- _], H2 as [<- _]; reflexivity).
    split; [exact Hk|].
    assert (Hl : len rows = len rows') by (rewrite <- (repr_count _ _ _ H1); apply (repr_count _ _ _ H2)).
    apply nth_error_ext; intros i.
    destruct (nth_error rows i) as [r|] eqn:E1, (nth_error rows' i) as [r'|] eqn:E2; auto.
    - pose proof (repr_nth _ _ _ H1 _ _ E1) as G1; pose proof (repr_nth _ _ _ H2 _ _ E2) as G2.
      rewrite G1 in G2; injection G2 as ->; reflexivity.
    - assert (nth_error rows i <> None) as Hne by congruence; apply nth_error_Some in Hne.
      apply nth_error_None in E2; unfold len in Hl; lia.
    - assert (nth_error rows' i <> None) as Hne by congruence; apply nth_error_Some in Hne.
      apply nth_error_None in E1; unfold len in Hl; lia.
  Qed.

  Lemma serie_of_repr k rows leftover dim :
    1 <= k < 2147483648 -> rows_of_size k rows -> k * len rows < 4294967296 -> len leftover < k ->
    exists s, serie_of k (concat rows ++ leftover) dim = Ok s /\ repr s k rows /\ dimension s = dim.
  Proof.
    intros Hk Hr Hm Hl; unfold serie_of; destruct (Z.eqb_spec k 0); [lia|].
    eexists; split; [reflexivity|]; split; [|reflexivity].
    pose proof (len_nonneg rows); pose proof (len_nonneg leftover).
    assert (Hc : (k * len rows + len leftover) / k = len rows)
      by (symmetry; apply (Z.div_unique _ _ _ (len leftover)); lia).
    repeat split; simpl; auto; try lia; try nia.
    - rewrite len_app, (len_concat k), u64_small by (auto; lia).
      rewrite Hc, u32_small; nia.
    - exists leftover; reflexivity.
  Qed.
End Facts.
