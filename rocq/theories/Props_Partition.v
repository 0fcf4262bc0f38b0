(** * C31 - C34: partition_n. *)
From Verif Require Import Base Num Serie Spec BaseFacts SerieFacts Functional FunctionalFacts Utils UtilsFacts
  F64 F64Facts Props_Functional Props_Filter Props_Fold Props_Merge.
From Coq Require Import Permutation.

Ltac Zify.zify_post_hook ::= Z.div_mod_to_equations.
Opaque f64_of_Z.
#[local] Existing Instance F64N.

Lemma nth_error_split_sizes {A} (sizes : list nat) : forall (l : list A) j part,
  nth_error (split_sizes sizes l) j = Some part ->
  part = firstn (nth j sizes O) (skipn (total (firstn j sizes)) l).
Proof.
  induction sizes as [|n sizes IH]; intros l j part E; [destruct j; discriminate|].
  destruct j as [|j]; simpl in E; [injection E as <-; reflexivity|].
  apply IH in E; rewrite E, skipn_skipn'; reflexivity.
Qed.
Lemma concat_split_sizes {A} (sizes : list nat) : forall l : list A,
  (length l <= total sizes)%nat -> concat (split_sizes sizes l) = l.
Proof.
  induction sizes as [|n sizes IH]; intros l Hl; simpl in *; [destruct l; [reflexivity|simpl in Hl; lia]|].
  rewrite IH; [apply firstn_skipn|rewrite skipn_length; lia].
Qed.
Lemma split_sizes_length {A} (sizes : list nat) : forall l : list A, length (split_sizes sizes l) = length sizes.
Proof. induction sizes as [|n sizes IH]; intros l; [reflexivity|]; simpl; rewrite IH; reflexivity. Qed.
Lemma split_sizes_lengths {A} (sizes : list nat) : forall l : list A,
  (total sizes <= length l)%nat -> map (@length A) (split_sizes sizes l) = sizes.
Proof.
  induction sizes as [|n sizes IH]; intros l Hl; [reflexivity|]; simpl in *.
  rewrite firstn_length, IH by (rewrite skipn_length; lia); f_equal; lia.
Qed.
Lemma split_sizes_rows {T} k (sizes : list nat) : forall rows : list (list T),
  rows_of_size k rows -> Forall (rows_of_size k) (split_sizes sizes rows).
Proof.
  induction sizes as [|n sizes IH]; intros rows Hr; simpl; constructor.
  - apply rows_firstn; exact Hr.
  - apply IH, rows_skipn, Hr.
Qed.

(** the sizes partition_n uses: n parts of count/n items, one more in the first (count mod n) ones *)
Definition sz (base rem : Z) (i : nat) : nat := Z.to_nat (base + (if Z.of_nat i <? rem then 1 else 0)).
Definition off (base rem : Z) (i : nat) : Z := Z.of_nat i * base + Z.min (Z.of_nat i) rem.

Lemma off_S base rem i : 0 <= base -> 0 <= rem -> off base rem (S i) = off base rem i + Z.of_nat (sz base rem i).
Proof. intros Hb Hr; unfold off, sz; destruct (Z.ltb_spec (Z.of_nat i) rem); lia. Qed.
Lemma off_le base rem i j : 0 <= base -> 0 <= rem -> (i <= j)%nat -> off base rem i <= off base rem j.
Proof. intros Hb Hr Hij; unfold off; nia. Qed.
Lemma total_sz base rem i m : 0 <= base -> 0 <= rem ->
  Z.of_nat (total (map (sz base rem) (seq i m))) = off base rem (i + m) - off base rem i.
Proof.
  intros Hb Hr; revert i; induction m as [|m IH]; intros i; simpl; [rewrite Nat.add_0_r; lia|].
  rewrite Nat2Z.inj_add, IH; replace (S i + m)%nat with (i + S m)%nat by lia.
  rewrite (off_S base rem i Hb Hr); lia.
Qed.
Lemma balanced_sz base rem m : 0 <= base -> 0 <= rem ->
  exists a b, map (sz base rem) (seq 0 m) = repeat (S (Z.to_nat base)) a ++ repeat (Z.to_nat base) b.
Proof.
  intros Hb Hr; exists (Nat.min m (Z.to_nat rem)), (m - Nat.min m (Z.to_nat rem))%nat.
  rewrite <- (Nat.sub_add (Nat.min m (Z.to_nat rem)) m) at 1 by lia.
  rewrite Nat.add_comm, seq_app, map_app; f_equal.
  - assert (G : forall c s, (s + c <= Z.to_nat rem)%nat -> map (sz base rem) (seq s c) = repeat (S (Z.to_nat base)) c).
    { induction c as [|c IH]; intros s Hs; [reflexivity|]; simpl; rewrite IH by lia; f_equal.
      unfold sz; destruct (Z.ltb_spec (Z.of_nat s) rem); lia. }
    apply G; lia.
  - assert (G : forall c s, (c = 0 \/ Z.to_nat rem <= s)%nat -> map (sz base rem) (seq s c) = repeat (Z.to_nat base) c).
    { induction c as [|c IH]; intros s Hs; [reflexivity|]; simpl; rewrite IH by lia; f_equal.
      unfold sz; destruct (Z.ltb_spec (Z.of_nat s) rem); lia. }
    apply G; lia.
Qed.

Section Partition.
  Context {T : Type} {NT : Num T}.

  Lemma copy_range_ok (s : Serie T) k rows start size :
    repr s k rows -> 0 <= start -> 0 <= size -> start + size <= len rows ->
    copy_range s start size = Ok (mk k (firstn (Z.to_nat size) (skipn (Z.to_nat start) rows)) 3).
  Proof.
    intros Hs H1 H2 H3; unfold copy_range; rewrite (repr_itemSize _ _ _ Hs).
    assert (Hk : 0 <= k < 2147483648) by apply Hs; assert (Hl : len rows < 4294967296) by apply Hs.
    assert (Hm : k * len rows < 4294967296) by apply Hs.
    set (part := firstn (Z.to_nat size) (skipn (Z.to_nat start) rows)).
    assert (Ep : len part = size).
    { unfold part, len; rewrite firstn_length, skipn_length; unfold len in H3; lia. }
    rewrite s32_small by lia; rewrite <- Ep at 1 2.
    apply (fill_serie_n (fun j => get_array s (u32 (start + j)))); auto.
    - apply rows_firstn, rows_skipn, Hs.
    - lia.
    - rewrite Ep; nia.
    - intros j r Hj.
      assert (Hjl : (j < length part)%nat) by (apply nth_error_Some; congruence).
      rewrite u32_small by (unfold len in *; lia).
      replace (start + Z.of_nat j) with (Z.of_nat (Z.to_nat start + j)) by lia.
      apply (repr_nth _ _ _ Hs).
      unfold part in Hj.
      assert (Hlt : (j < Z.to_nat size)%nat) by (unfold part in Hjl; rewrite firstn_length in Hjl; lia).
      clear -Hj Hlt.
      assert (G1 : forall A n (l : list A) j, (j < n)%nat -> nth_error (firstn n l) j = nth_error l j).
      { induction n as [|n IH]; intros l j0 Hj0; [lia|]; destruct l; [reflexivity|]; destruct j0; [reflexivity|].
        simpl; apply IH; lia. }
      assert (G2 : forall A n (l : list A) j, nth_error (skipn n l) j = nth_error l (n + j)).
      { induction n as [|n IH]; intros l j0; [reflexivity|]; destruct l; [destruct j0; reflexivity|simpl; apply IH]. }
      rewrite G1, G2 in Hj by exact Hlt; exact Hj.
  Qed.

  Lemma part_size_ok base rem i : 0 <= base -> base + 1 < 4294967296 -> part_size base rem (Z.of_nat i) = Z.of_nat (sz base rem i).
  Proof.
    intros Hb Hm; unfold part_size, sz; rewrite u32_small; destruct (Z.of_nat i <? rem); lia.
  Qed.

  Lemma parts_loop_ok (s : Serie T) k rows base rem n : repr s k rows ->
    0 <= base -> 0 <= rem < Z.of_nat n -> len rows = Z.of_nat n * base + rem -> Z.of_nat n < 4294967296 ->
    let P := Nat.max 1 (Nat.min n (length rows)) in
    forall m i acc, (i + m = P)%nat -> (0 < m)%nat ->
    parts_loop s (len rows) base rem (seqZ i (n - i)) (off base rem i) acc
    = Ok (acc ++ map (fun r => mk k r 3)
                     (split_sizes (map (sz base rem) (seq i m)) (skipn (Z.to_nat (off base rem i)) rows))).
  Proof.
    intros Hs Hb Hr Ht Hn P.
    assert (Hl : len rows < 4294967296) by apply Hs.
    assert (HB : base + 1 < 4294967296 \/ (n = 1%nat /\ base = len rows /\ rem = 0)) by nia.
    assert (Hoff : forall i, (i <= n)%nat -> off base rem i <= len rows) by (intros i Hi; unfold off; nia).
    assert (Hdone : forall i, (i < P)%nat -> (len rows <=? off base rem (S i)) = Nat.eqb (S i) P).
    { intros i Hi; unfold P in *; destruct (Nat.eqb_spec (S i) (Nat.max 1 (Nat.min n (length rows)))) as [E|E].
      - apply Z.leb_le; unfold off, len in *.
        destruct (Z_lt_le_dec (Z.of_nat (length rows)) (Z.of_nat n)).
        + assert (base = 0) by nia; subst base; lia.
        + assert (S i = n) by lia; nia.
      - apply Z.leb_gt; unfold off, len in *.
        destruct (Z_lt_le_dec (Z.of_nat (length rows)) (Z.of_nat n)).
        + assert (base = 0) by nia; subst base; lia.
        + assert (1 <= base) by nia; nia. }
    assert (Hps : forall i, (i < n)%nat -> part_size base rem (Z.of_nat i) = Z.of_nat (sz base rem i)).
    { intros i Hi; destruct HB as [HB|(-> & -> & ->)]; [apply part_size_ok; lia|].
      assert (i = 0%nat) by lia; subst i; unfold part_size, sz; simpl; rewrite u32_small; lia. }
    induction m as [|m IH]; intros i acc Him Hm; [lia|].
    assert (Hi : (i < P)%nat) by lia; assert (HPn : (P <= n)%nat) by (unfold P; lia).
    pose proof (off_S base rem i Hb ltac:(lia)) as ES.
    pose proof (Hoff (S i) ltac:(lia)) as HoS.
    assert (H0 : 0 <= off base rem i) by (unfold off; nia).
    replace (n - i)%nat with (S (n - S i)) by lia; rewrite seqZ_S; cbn [parts_loop].
    rewrite (Hps i ltac:(lia)).
    rewrite (copy_range_ok s k rows _ _ Hs) by lia; cbn [obind].
    rewrite <- ES, u32_small by lia.
    rewrite (Hdone i Hi), Nat2Z.id; cbn [seq map split_sizes].
    destruct (Nat.eqb_spec (S i) P) as [E|E].
    - assert (m = 0%nat) by lia; subst m; reflexivity.
    - rewrite IH by lia; rewrite <- app_assoc; cbn [app map]; do 4 f_equal.
      rewrite skipn_skipn'; do 2 f_equal; lia.
  Qed.

  Lemma partition_n_parts (s : Serie T) k rows n :
    repr s k rows -> 1 <= n < 4294967296 ->
    let sizes := map (sz (len rows / n) (len rows mod n))
                     (seq 0 (Nat.max 1 (Nat.min (Z.to_nat n) (length rows)))) in
    partition_n n s = Ok (map (fun r => mk k r 3) (split_sizes sizes rows)) /\ total sizes = length rows.
  Proof.
    intros Hs Hn sizes; pose proof (len_nonneg rows).
    assert (Hd : len rows = Z.of_nat (Z.to_nat n) * (len rows / n) + len rows mod n)
      by (rewrite Z2Nat.id by lia; apply Z.div_mod; lia).
    assert (H0 : 0 <= len rows / n) by (apply Z.div_pos; lia).
    assert (H1 : 0 <= len rows mod n < n) by (apply Z.mod_pos_bound; lia).
    split.
    - unfold partition_n; rewrite (repr_count _ _ _ Hs); destruct (Z.eqb_spec n 0); [lia|].
      pose proof (parts_loop_ok s k rows (len rows / n) (len rows mod n) (Z.to_nat n) Hs H0 ltac:(lia) Hd ltac:(lia)
                    (Nat.max 1 (Nat.min (Z.to_nat n) (length rows))) 0 [] ltac:(lia) ltac:(lia)) as E.
      rewrite Nat.sub_0_r in E; rewrite iota_seqZ.
      replace (off (len rows / n) (len rows mod n) 0) with 0 in E by (unfold off; lia); exact E.
    - unfold sizes; apply Nat2Z.inj; rewrite total_sz by lia; unfold off, len in *.
      destruct (Z_lt_le_dec (Z.of_nat (length rows)) n) as [Hlt|Hge].
      + rewrite Z.div_small, Z.mod_small by lia; lia.
      + replace (Nat.max 1 (Nat.min (Z.to_nat n) (length rows))) with (Z.to_nat n) by lia.
        rewrite Nat.add_0_l, Z2Nat.id in * by lia; lia.
  Qed.

  Lemma partition_one_ok (s : Serie T) k rows n : repr s k rows -> 1 <= n < 4294967296 ->
    partition_one n (len rows / n) (len rows mod n) s
    = Ok (map (fun r => mk k r 3)
              (split_sizes (map (sz (len rows / n) (len rows mod n)) (seq 0 (Z.to_nat n))) rows)).
  Proof.
    intros Hs Hn; pose proof (len_nonneg rows) as Hp.
    assert (Hl : len rows < 4294967296) by apply Hs.
    set (base := len rows / n); set (rem := len rows mod n).
    assert (H0 : 0 <= base) by (apply Z.div_pos; lia).
    assert (H1 : 0 <= rem < n) by (apply Z.mod_pos_bound; lia).
    assert (Hd : len rows = n * base + rem) by (apply Z.div_mod; lia).
    assert (Hps : forall i, Z.of_nat i < n -> part_size base rem (Z.of_nat i) = Z.of_nat (sz base rem i)).
    { intros i Hi; unfold part_size, sz; rewrite u32_small; destruct (Z.ltb_spec (Z.of_nat i) rem); nia. }
    assert (G : forall m i acc, (i + m = Z.to_nat n)%nat ->
      foldO (fun (st : Z * list (Serie T)) i =>
                        let* part := copy_range s (fst st) (part_size base rem i) in
                        Ok (u32 (fst st + part_size base rem i), snd st ++ [part]))
            (seqZ i m) (off base rem i, acc)
      = Ok (off base rem (i + m), acc ++ map (fun r => mk k r 3)
              (split_sizes (map (sz base rem) (seq i m)) (skipn (Z.to_nat (off base rem i)) rows)))).
    { induction m as [|m IH]; intros i acc Him; [rewrite Nat.add_0_r; cbn; rewrite app_nil_r; reflexivity|].
      rewrite seqZ_S; cbn [foldO fst snd]; rewrite Hps by lia.
      pose proof (off_S base rem i H0 ltac:(lia)) as ES.
      assert (off base rem (S i) <= len rows) by (unfold off; nia).
      assert (0 <= off base rem i) by (unfold off; nia).
      rewrite (copy_range_ok s k rows _ _ Hs) by lia; cbn [obind].
      rewrite <- ES, u32_small by lia; rewrite IH by lia.
      rewrite <- app_assoc, Nat2Z.id; cbn [app map seq split_sizes]; do 2 f_equal; [f_equal; lia|].
      rewrite skipn_skipn'; do 5 f_equal; lia. }
    unfold partition_one; rewrite iota_seqZ; cbv zeta.
    specialize (G (Z.to_nat n) 0%nat [] eq_refl).
    replace (off base rem 0) with 0 in G by (unfold off; lia).
    rewrite G; reflexivity.
  Qed.

  Lemma reprs_countAndCheck (ss : list (Serie T)) kts n :
    ss <> [] -> reprs ss kts -> same_count n kts -> countAndCheck ss = Ok n.
  Proof.
    intros Hne Hr Hc; destruct Hr as [|s [k t] ss kts Hs Hr]; [congruence|].
    inversion Hc as [|? ? Hk Hc']; subst; simpl in *; rewrite (repr_count _ _ _ Hs).
    replace (forallb (fun s0 => count s0 =? len t) ss) with true; [reflexivity|].
    symmetry; apply forallb_forall; intros x Hx; apply Z.eqb_eq.
    clear Hne Hs Hc; induction Hr as [|y [k' t'] ss kts Hy Hr IH]; [destruct Hx|].
    inversion Hc' as [|? ? Ht' Hc'']; subst; destruct Hx as [<-|Hx]; [|apply IH; auto].
    rewrite (repr_count _ _ _ Hy); exact Ht'.
  Qed.

  Lemma partition_n_multi_parts (ss : list (Serie T)) kts c n :
    ss <> [] -> reprs ss kts -> same_count c kts -> 1 <= n < 4294967296 ->
    let sizes := map (sz (c / n) (c mod n)) (seq 0 (Z.to_nat n)) in
    partition_n_multi n ss
    = Ok (map (fun kt => map (fun r => mk (fst kt) r 3) (split_sizes sizes (snd kt))) kts).
  Proof.
    intros Hne Hr Hc Hn sizes; unfold partition_n_multi; destruct (Z.eqb_spec n 0); [lia|].
    rewrite (reprs_countAndCheck ss kts c Hne Hr Hc); cbn [obind].
    clear Hne; induction Hr as [|s [k t] ss kts Hs Hr IH]; [reflexivity|].
    inversion Hc as [|? ? Hk Hc']; subst; cbn [fst snd] in *; cbn [mapO].
    rewrite (partition_one_ok s k t n Hs Hn); cbn [obind]; rewrite IH by exact Hc'; reflexivity.
  Qed.
End Partition.

Lemma multi_total c n : 0 <= c -> 1 <= n < 4294967296 ->
  Z.of_nat (total (map (sz (c / n) (c mod n)) (seq 0 (Z.to_nat n)))) = c.
Proof.
  intros Hc Hn.
  assert (H0 : 0 <= c / n) by (apply Z.div_pos; lia).
  assert (H1 : 0 <= c mod n < n) by (apply Z.mod_pos_bound; lia).
  assert (Hd : c = n * (c / n) + c mod n) by (apply Z.div_mod; lia).
  rewrite total_sz by lia; unfold off; rewrite Nat.add_0_l, Z2Nat.id by lia; lia.
Qed.

(** ** C31 *)
Theorem C31_partition_n_lossless :
  forall (T : Type) (NT : Num T) (s : Serie T) k rows n,
  repr s k rows -> 1 <= n < 2 ^ 32 ->
  exists parts, partition_n n s = Ok (map (fun r => mk k r 3) parts) /\ concat parts = rows /\
    (1 <= k -> concat_series (map (fun r => mk k r 3) parts) = Ok (mk k rows 3)).
Proof.
  intros T NT s k rows n Hs Hn.
  destruct (partition_n_parts s k rows n Hs Hn) as [E Et]; eexists; split; [exact E|].
  set (sizes := map (sz _ _) _) in *.
  assert (Ec : concat (split_sizes sizes rows) = rows) by (apply concat_split_sizes; lia).
  split; [exact Ec|]; intros Hk.
  assert (Hk2 : 0 <= k < 2147483648) by apply Hs; assert (Hl : len rows < 4294967296) by apply Hs.
  assert (Hm : k * len rows < 4294967296) by apply Hs.
  rewrite <- Ec at 2; apply C29_concat; auto; rewrite ?Ec; auto.
  - unfold sizes; destruct (Nat.max 1 (Nat.min (Z.to_nat n) (length rows))) eqn:En; [lia|discriminate].
  - pose proof (split_sizes_rows k sizes rows ltac:(apply Hs)) as Hall.
    assert (Hlen : Forall (fun p => len p <= len rows) (split_sizes sizes rows)).
    { apply Forall_forall; intros p Hp; apply in_split in Hp; destruct Hp as (l1 & l2 & E2).
      rewrite <- Ec, E2, concat_app; simpl; rewrite !len_app; pose proof (len_nonneg (concat l1)); pose proof (len_nonneg (concat l2)); lia. }
    clear -Hall Hlen Hk2 Hl Hm; induction (split_sizes sizes rows) as [|p ps IH]; simpl; [constructor|].
    inversion Hall; inversion Hlen; subst; constructor; [|apply IH; assumption].
    cbn [fst snd]; apply repr_mk; auto; [lia|nia].
Qed.
Print Assumptions C31_partition_n_lossless.

Theorem C31_partition_n_multi_lossless :
  forall (T : Type) (NT : Num T) (ss : list (Serie T)) kts c n,
  ss <> [] -> reprs ss kts -> same_count c kts -> 1 <= n < 2 ^ 32 ->
  exists cuts, partition_n_multi n ss = Ok (map (fun p => map (fun r => mk (fst p) r 3) (snd p)) cuts) /\
    map (fun p => (fst p, concat (snd p))) cuts = kts.
Proof.
  intros T NT ss kts c n Hne Hr Hc Hn.
  set (sizes := map (sz (c / n) (c mod n)) (seq 0 (Z.to_nat n))).
  exists (map (fun kt => (fst kt, split_sizes sizes (snd kt))) kts); split.
  - rewrite (partition_n_multi_parts ss kts c n Hne Hr Hc Hn), map_map; reflexivity.
  - rewrite map_map; rewrite <- (map_id kts) at 2; apply map_ext_in; intros [k t] Hin; simpl; f_equal.
    apply concat_split_sizes; apply Nat2Z.inj_le.
    unfold same_count in Hc; rewrite Forall_forall in Hc; specialize (Hc _ Hin); simpl in Hc.
    unfold sizes; rewrite multi_total; unfold len in Hc; lia.
Qed.
Print Assumptions C31_partition_n_multi_lossless.

Example C31_witness :
  let s := mk 1 (col [#1; #2; #3; #4; #5; #6; #7]) 3 in
  repr s 1 (col [#1; #2; #3; #4; #5; #6; #7]) /\
  partition_n 3 s = Ok [mk 1 (col [#1; #2; #3]) 3; mk 1 (col [#4; #5]) 3; mk 1 (col [#6; #7]) 3].
Proof. split; [repr_ex|reflexivity]. Qed.

(** ** C32 *)
Theorem C32_partition_n_balanced :
  forall (T : Type) (NT : Num T) (s : Serie T) k rows n,
  repr s k rows -> 1 <= n < 2 ^ 32 ->
  exists parts, partition_n n s = Ok parts /\ balanced (map (fun p => Z.to_nat (count p)) parts).
Proof.
  intros T NT s k rows n Hs Hn; destruct (partition_n_parts s k rows n Hs Hn) as [E Et].
  eexists; split; [exact E|]; rewrite map_map.
  pose proof (len_nonneg rows).
  rewrite (map_ext (fun x => Z.to_nat (count (mk k x 3))) (@length (list T))) by (intros x; apply len_length).
  rewrite split_sizes_lengths by lia.
  destruct (balanced_sz (len rows / n) (len rows mod n) (Nat.max 1 (Nat.min (Z.to_nat n) (length rows)))) as (a & b & Eb);
    [apply Z.div_pos; lia|apply Z.mod_pos_bound; lia|].
  rewrite Eb; do 3 eexists; reflexivity.
Qed.
Print Assumptions C32_partition_n_balanced.

Theorem C32_partition_n_multi_balanced :
  forall (T : Type) (NT : Num T) (ss : list (Serie T)) kts c n,
  ss <> [] -> reprs ss kts -> same_count c kts -> 1 <= n < 2 ^ 32 ->
  exists partss, partition_n_multi n ss = Ok partss /\
    Forall (fun parts => balanced (map (fun p => Z.to_nat (count p)) parts)) partss.
Proof.
  intros T NT ss kts c n Hne Hr Hc Hn; rewrite (partition_n_multi_parts ss kts c n Hne Hr Hc Hn).
  eexists; split; [reflexivity|]; apply Forall_map, Forall_forall; intros [k t] Hin; simpl.
  unfold same_count in Hc; rewrite Forall_forall in Hc; specialize (Hc _ Hin); simpl in Hc.
  pose proof (len_nonneg t).
  rewrite map_map, (map_ext (fun x => Z.to_nat (count (mk k x 3))) (@length (list T))) by (intros x; apply len_length).
  rewrite split_sizes_lengths by (apply Nat2Z.inj_le; rewrite multi_total; unfold len in *; lia).
  destruct (balanced_sz (c / n) (c mod n) (Z.to_nat n)) as (a & b & Eb);
    [apply Z.div_pos; lia|apply Z.mod_pos_bound; lia|].
  rewrite Eb; do 3 eexists; reflexivity.
Qed.
Print Assumptions C32_partition_n_multi_balanced.

(** what [balanced] means *)
Lemma balanced_spec sizes : balanced sizes ->
  forall i j x y, (i <= j)%nat -> nth_error sizes i = Some x -> nth_error sizes j = Some y -> (y <= x <= S y)%nat.
Proof.
  intros (q & a & b & ->) i j x y Hij Hx Hy.
  assert (G : forall n z, nth_error (repeat (S q) a ++ repeat q b) n = Some z ->
              z = if (n <? a)%nat then S q else q).
  { intros n z Hz; destruct (Nat.ltb_spec n a).
    - rewrite nth_error_app1 in Hz by (rewrite repeat_length; lia).
      apply nth_error_In, repeat_spec in Hz; exact Hz.
    - rewrite nth_error_app2 in Hz by (rewrite repeat_length; lia).
      apply nth_error_In, repeat_spec in Hz; exact Hz. }
  apply G in Hx, Hy; subst; destruct (Nat.ltb_spec i a), (Nat.ltb_spec j a); lia.
Qed.

Example C32_witness :
  balanced [3; 2; 2]%nat /\ ~ balanced [2; 3]%nat.
Proof.
  split; [exists 2%nat, 1%nat, 2%nat; reflexivity|].
  intros H; pose proof (balanced_spec _ H 0 1 2 3 ltac:(lia) eq_refl eq_refl); lia.
Qed.

(** ** C33 *)
Theorem C33_partition_n_parts_partial :
  forall (T : Type) (NT : Num T) (s : Serie T) k rows n,
  repr s k rows -> 1 <= n <= len rows ->
  exists parts, partition_n n s = Ok parts /\ len parts = n.
Proof.
  intros T NT s k rows n Hs Hn; assert (Hl : len rows < 4294967296) by apply Hs.
  destruct (partition_n_parts s k rows n Hs ltac:(lia)) as [E _].
  eexists; split; [exact E|].
  unfold len in *; rewrite map_length, split_sizes_length, map_length, seq_length; lia.
Qed.
Print Assumptions C33_partition_n_parts_partial.

(** how many parts there are in every case *)
Theorem C33_partition_n_count :
  forall (T : Type) (NT : Num T) (s : Serie T) k rows n,
  repr s k rows -> 1 <= n < 2 ^ 32 ->
  exists parts, partition_n n s = Ok parts /\ len parts = Z.max 1 (Z.min n (len rows)).
Proof.
  intros T NT s k rows n Hs Hn.
  destruct (partition_n_parts s k rows n Hs Hn) as [E _].
  eexists; split; [exact E|].
  unfold len in *; rewrite map_length, split_sizes_length, map_length, seq_length; lia.
Qed.
Print Assumptions C33_partition_n_count.

(** the single form does not return n parts when count < n, and divides by zero for n = 0 *)
Theorem C33_partition_n_refuted :
  (exists (s : Serie F64) n parts, repr s 1 (col [#1]) /\ 1 <= n /\ partition_n n s = Ok parts /\ len parts <> n) /\
  (exists (s : Serie F64), repr s 1 (col [#1]) /\ partition_n 0 s = UB).
Proof.
  split.
  - exists (mk 1 (col [#1]) 3), 2, [mk 1 (col [#1]) 3]; split; [repr_ex|]; split; [lia|]; split; [reflexivity|].
    discriminate.
  - exists (mk 1 (col [#1]) 3); split; [repr_ex|reflexivity].
Qed.
Print Assumptions C33_partition_n_refuted.

Theorem C33_partition_n_multi_parts :
  forall (T : Type) (NT : Num T) (ss : list (Serie T)),
  (forall kts c n, ss <> [] -> reprs ss kts -> same_count c kts -> 1 <= n < 2 ^ 32 ->
     exists partss, partition_n_multi n ss = Ok partss /\ len partss = len ss /\ Forall (fun parts => len parts = n) partss) /\
  partition_n_multi 0 ss = Throw InvalidArgument.
Proof.
  intros T NT ss; split; [|reflexivity].
  intros kts c n Hne Hr Hc Hn; rewrite (partition_n_multi_parts ss kts c n Hne Hr Hc Hn).
  eexists; split; [reflexivity|]; split.
  - rewrite len_map; unfold len; f_equal; symmetry; clear -Hr; induction Hr; simpl; congruence.
  - apply Forall_map, Forall_forall; intros kt _.
    unfold len; rewrite map_length, split_sizes_length, map_length, seq_length; lia.
Qed.
Print Assumptions C33_partition_n_multi_parts.

(** ** C34 *)
Theorem C34_partition_n_aligned :
  forall (T : Type) (NT : Num T) (ss : list (Serie T)) kts c n,
  ss <> [] -> reprs ss kts -> same_count c kts -> 1 <= n < 2 ^ 32 ->
  exists sizes starts : nat -> Z,
    exists partss, partition_n_multi n ss = Ok partss /\
    forall m k table j, nth_error kts m = Some (k, table) -> (j < Z.to_nat n)%nat ->
    exists parts rows_j, nth_error partss m = Some parts /\ nth_error parts j = Some (mk k rows_j 3) /\
      len rows_j = sizes j /\
      forall r, Z.of_nat r < sizes j -> nth_error rows_j r = nth_error table (Z.to_nat (starts j) + r).
Proof.
  intros T NT ss kts c n Hne Hr Hc Hn.
  set (szs := map (sz (c / n) (c mod n)) (seq 0 (Z.to_nat n))).
  exists (fun j => Z.of_nat (nth j szs O)), (fun j => Z.of_nat (total (firstn j szs))).
  rewrite (partition_n_multi_parts ss kts c n Hne Hr Hc Hn); eexists; split; [reflexivity|].
  intros m k table j Hm Hj; fold szs.
  assert (Hl : len table = c).
  { unfold same_count in Hc; rewrite Forall_forall in Hc; exact (Hc _ (nth_error_In _ _ Hm)). }
  assert (Hj2 : (j < length (split_sizes szs table))%nat).
  { rewrite split_sizes_length; unfold szs; rewrite map_length, seq_length; exact Hj. }
  apply nth_error_Some in Hj2; destruct (nth_error (split_sizes szs table) j) as [p|] eqn:Ep; [clear Hj2|congruence].
  eexists; exists p; split; [apply map_nth_error; exact Hm|]; split; [simpl; apply (map_nth_error (fun r => mk k r 3)); exact Ep|].
  assert (Etot : total szs = length table).
  { apply Nat2Z.inj; pose proof (len_nonneg table); unfold szs; rewrite multi_total; unfold len in *; lia. }
  assert (Elen : length p = nth j szs O).
  { pose proof (split_sizes_lengths szs table ltac:(lia)) as E.
    pose proof (map_nth_error (@length (list T)) j (split_sizes szs table) Ep) as E2.
    rewrite E in E2; symmetry; apply nth_error_nth; exact E2. }
  split; [unfold len; rewrite Elen; reflexivity|]; intros r Hlt.
  pose proof (nth_error_split_sizes szs table j p Ep) as Es; rewrite Nat2Z.id.
  assert (Hr' : (r < nth j szs O)%nat) by lia.
  rewrite Es.
  assert (G1 : forall A n (l : list A) j, (j < n)%nat -> nth_error (firstn n l) j = nth_error l j).
  { clear; induction n as [|n IH]; intros l j0 Hj0; [lia|]; destruct l; [reflexivity|]; destruct j0; [reflexivity|].
    simpl; apply IH; lia. }
  assert (G2 : forall A n (l : list A) j, nth_error (skipn n l) j = nth_error l (n + j)).
  { clear; induction n as [|n IH]; intros l j0; [reflexivity|]; destruct l; [destruct j0; reflexivity|simpl; apply IH]. }
  rewrite G1, G2 by exact Hr'; reflexivity.
Qed.
Print Assumptions C34_partition_n_aligned.

Theorem C34_partition_n_refused :
  forall (T : Type) (NT : Num T) (ss : list (Serie T)) s1 s2 n,
  In s1 ss -> In s2 ss -> count s1 <> count s2 -> partition_n_multi n ss = Throw InvalidArgument.
Proof.
  intros T NT ss s1 s2 n H1 H2 Hne; unfold partition_n_multi; destruct (n =? 0); [reflexivity|].
  destruct ss as [|s0 ss]; [destruct H1|]; unfold countAndCheck.
  destruct (forallb (fun s => count s =? count s0) ss) eqn:E; [|reflexivity].
  exfalso; apply Hne; rewrite forallb_forall in E.
  assert (G : forall x, In x (s0 :: ss) -> count x = count s0).
  { intros x [<-|Hx]; [reflexivity|]; apply Z.eqb_eq, E, Hx. }
  rewrite (G _ H1), (G _ H2); reflexivity.
Qed.
Print Assumptions C34_partition_n_refused.

Example C34_witness :
  let a := mk 1 (col [#1; #2; #3]) 3 in let b := mk 2 [[#1; #2]; [#3; #4]; [#5; #6]] 3 in
  reprs [a; b] [(1, col [#1; #2; #3]); (2, [[#1; #2]; [#3; #4]; [#5; #6]])] /\
  same_count 3 [(1, col [#1; #2; #3]); (2, [[#1; #2]; [#3; #4]; [#5; #6]])] /\
  partition_n_multi 2 [a; b]
  = Ok [[mk 1 (col [#1; #2]) 3; mk 1 (col [#3]) 3]; [mk 2 [[#1; #2]; [#3; #4]] 3; mk 2 [[#5; #6]] 3]].
Proof.
  split; [constructor; [repr_ex|constructor; [repr_ex|constructor]]|].
  split; [repeat constructor|reflexivity].
Qed.
