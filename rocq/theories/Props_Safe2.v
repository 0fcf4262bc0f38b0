(** * C162: the functions that need more than sound Series. *)
From Coq Require Import ZArith List Lia Bool Permutation.
From Verif Require Import Base Num Serie Functional Mathf Algebra Stats Geo Utils Eigen Random Exec Spec BaseFacts OrderFacts EigenFacts Props_Functional SafeFacts Props_Safe Props_Parallel Props_Ask.
Import ListNotations.
Open Scope Z_scope.

Section Loops.
  (** a loop whose invariant mentions the counter *)
  Lemma safely_count {A} (I : Z -> A -> Prop) (f : A -> Z -> outcome A) n a : 0 <= n ->
    (forall i a, 0 <= i < n -> I i a -> safely (I (i + 1)) (f a i)) -> I 0 a -> safely (I n) (foldO f (iota n) a).
  Proof.
    intros Hn Hf H0; unfold iota.
    assert (G : forall m b a, (b + m <= Z.to_nat n)%nat -> I (Z.of_nat b) a -> safely (I (Z.of_nat (b + m))) (foldO f (map Z.of_nat (seq b m)) a)).
    { induction m as [|m IH]; intros b a0 Hb Ha; [rewrite Nat.add_0_r; exact Ha|].
      cbn [seq map foldO]. eapply safely_bind; [apply Hf; [lia|exact Ha]|]. intros c Hc.
      replace (Z.of_nat b + 1) with (Z.of_nat (S b)) in Hc by lia. replace (b + S m)%nat with (S b + m)%nat by lia. apply IH; [lia|exact Hc]. }
    specialize (G (Z.to_nat n) 0%nat a ltac:(lia) H0). cbn [Nat.add] in G. rewrite Z2Nat.id in G by lia. exact G.
  Qed.
  Lemma safely_fst {A} (P Q : A -> Prop) o : safely (fun a => P a /\ Q a) o -> safely P o.
  Proof. apply safely_mono; intros a Ha; exact (proj1 Ha). Qed.
End Loops.

Section More.
  Context {T : Type} `{Num T}.
  Implicit Types s : Serie T.

  (** ** partition_n *)
  (** where part [i] of [n] begins *)
  Definition begins (total n i : Z) : Z := i * (total / n) + Z.min i (total mod n).
  Lemma begins_next total n i : 1 <= n -> 0 <= total < 4294967296 -> 0 <= i < n ->
    0 <= begins total n i /\ begins total n (i + 1) <= total /\
    begins total n (i + 1) = begins total n i + part_size (total / n) (total mod n) i /\ 0 <= part_size (total / n) (total mod n) i.
  Proof.
    intros Hn Ht Hi; unfold begins, part_size.
    pose proof (Z.div_mod total n ltac:(lia)) as D; pose proof (Z.mod_pos_bound total n ltac:(lia)) as M; pose proof (Z.div_pos total n ltac:(lia) ltac:(lia)) as P.
    assert (Q : (i + 1) * (total / n) <= n * (total / n)) by (apply Z.mul_le_mono_nonneg_r; lia).
    assert (R : (i + 1) * (total / n) = i * (total / n) + total / n) by ring.
    assert (R0 : 0 <= i * (total / n)) by (apply Z.mul_nonneg_nonneg; lia).
    destruct (Z.ltb_spec i (total mod n)); rewrite u32_small by lia; lia.
  Qed.
  Lemma safe_range s start n : sound s -> 0 <= start -> 0 <= n -> start + n <= count_ s ->
    safely (fun p => sound p /\ itemSize_ p = itemSize_ s /\ len (s_ p) = n * itemSize_ s /\ count_ p = n) (copy_range s start n).
  Proof.
    intros Hs H0 Hn Hc; destruct (sound_bounds s Hs) as (B1 & B2 & B3 & B4 & B5 & B6 & B7 & _).
    unfold copy_range; rewrite B7.
    assert (L : n * itemSize_ s <= count_ s * itemSize_ s) by (apply Z.mul_le_mono_nonneg_r; lia). assert (0 <= n * itemSize_ s) by (apply Z.mul_nonneg_nonneg; lia).
    assert (Hr : sound (serie_n (T := T) (itemSize_ s) n 3)) by (apply sound_n; lia).
    eapply safely_mono; [|apply (safely_foldO (like (serie_n (itemSize_ s) n 3))); [|apply like_refl]].
    - intros r Hl; split; [exact (like_sound _ _ Hl Hr)|]. destruct Hl as (L1 & L2 & L3). rewrite L1, L2, L3. unfold serie_n; cbn [itemSize_ count_ s_].
      rewrite len_replicate, u32_small by (rewrite ?u32_small; lia). auto.
    - intros a j Hj Ha; apply in_iota in Hj. eapply (safely_bind (fun _ => True)).
      + eapply safely_mono; [|apply safe_get_array; [exact Hs|]]; [auto|]. rewrite u32_small by lia; lia.
      + intros v _. eapply safely_mono; [|apply safe_write; [exact (like_sound _ a Ha Hr)|lia]]. intros b; apply like_trans; exact Ha.
  Qed.
  (** parts that are sound and together hold the items up to [start] *)
  Definition parts_of s start (ps : list (Serie T)) : Prop :=
    Forall (fun p => sound p /\ itemSize_ p = itemSize_ s) ps /\ numbers ps = start * itemSize_ s.
  Lemma numbers_snoc ps p : numbers (ps ++ [p]) = numbers ps + len (s_ (p : Serie T)).
  Proof. unfold numbers; rewrite map_app, fold_right_app; cbn [map fold_right]. generalize (len (s_ p)); intros z. induction (map _ ps) as [|x l IH]; cbn [fold_right]; lia. Qed.
  Lemma parts_snoc s start n ps p : parts_of s start ps -> sound p -> itemSize_ p = itemSize_ s -> len (s_ p) = n * itemSize_ s -> parts_of s (start + n) (ps ++ [p]).
  Proof. intros [F N] Hp Ep El; split; [apply Forall_app; split; [exact F|constructor; [split; assumption|constructor]]|rewrite numbers_snoc, N, El; ring]. Qed.
  Lemma parts_nil s : parts_of s 0 []. Proof. split; [constructor|reflexivity]. Qed.

  Lemma safe_partition n s : sound s -> 1 <= n -> safely (fun ps => Forall (fun p => sound p /\ itemSize_ p = itemSize_ s) ps /\ numbers ps <= count_ s * itemSize_ s) (partition_n n s).
  Proof.
    intros Hs Hn; destruct (sound_bounds s Hs) as (B1 & B2 & _). unfold partition_n. change (count s) with (count_ s).
    destruct (Z.eqb_spec n 0) as [|_]; [lia|]. unfold iota.
    assert (G : forall m a ps, (a + m <= Z.to_nat n)%nat -> parts_of s (begins (count_ s) n (Z.of_nat a)) ps ->
      safely (fun ps => Forall (fun p => sound p /\ itemSize_ p = itemSize_ s) ps /\ numbers ps <= count_ s * itemSize_ s)
        (parts_loop s (count_ s) (count_ s / n) (count_ s mod n) (map Z.of_nat (seq a m)) (begins (count_ s) n (Z.of_nat a)) ps)).
    { assert (FIN : forall a ps, (a <= Z.to_nat n)%nat -> parts_of s (begins (count_ s) n (Z.of_nat a)) ps ->
        Forall (fun p => sound p /\ itemSize_ p = itemSize_ s) ps /\ numbers ps <= count_ s * itemSize_ s).
      { intros a ps Ha [F N]; split; [exact F|]. rewrite N. apply Z.mul_le_mono_nonneg_r; [lia|].
        destruct a as [|a]; [unfold begins; pose proof (Z.mod_pos_bound (count_ s) n ltac:(lia)); cbn; lia|].
        destruct (begins_next (count_ s) n (Z.of_nat a) Hn ltac:(lia) ltac:(lia)) as (_ & E & _). replace (Z.of_nat a + 1) with (Z.of_nat (S a)) in E by lia. exact E. }
      induction m as [|m IH]; intros a ps Ha Hp; [apply (FIN a ps); [lia|exact Hp]|].
      cbn [seq map parts_loop]. destruct (begins_next (count_ s) n (Z.of_nat a) Hn ltac:(lia) ltac:(lia)) as (E0 & E1 & E2 & E3).
      replace (Z.of_nat a + 1) with (Z.of_nat (S a)) in E1, E2 by lia.
      eapply safely_bind; [apply safe_range; [exact Hs|exact E0|exact E3|lia]|]. intros p (P1 & P2 & P3 & _).
      rewrite u32_small, <- E2 by lia. assert (Hp' : parts_of s (begins (count_ s) n (Z.of_nat (S a))) (ps ++ [p])) by (rewrite E2; apply parts_snoc; assumption).
      destruct (Z.leb_spec (count_ s) (begins (count_ s) n (Z.of_nat (S a)))); [apply (FIN (S a)); [lia|exact Hp']|]. apply IH; [lia|exact Hp']. }
    specialize (G (Z.to_nat n) 0%nat [] ltac:(lia)). change (begins (count_ s) n (Z.of_nat 0)) with (Z.min 0 (count_ s mod n)) in G.
    rewrite Z.min_l in G by (pose proof (Z.mod_pos_bound (count_ s) n ltac:(lia)); lia). apply G, parts_nil.
  Qed.
  Lemma safe_partition_one n s : sound s -> 1 <= n -> safely (Forall (fun p => sound p)) (partition_one n (count_ s / n) (count_ s mod n) s).
  Proof.
    intros Hs Hn; destruct (sound_bounds s Hs) as (B1 & B2 & _). unfold partition_one.
    apply (safely_bind (fun st => fst st = begins (count_ s) n n /\ Forall (fun p => sound p) (snd st))); [|intros st Hst; exact (proj2 Hst)].
    apply (safely_count (fun i st => fst st = begins (count_ s) n i /\ Forall (fun p => sound p) (snd st))); [lia| |].
    - intros i st Hi [E F]. destruct (begins_next (count_ s) n i Hn ltac:(lia) Hi) as (E0 & E1 & E2 & E3). rewrite E.
      eapply safely_bind; [apply safe_range; [exact Hs|exact E0|exact E3|lia]|]. intros p (P1 & _).
      cbn [fst snd safely]. rewrite u32_small by lia. split; [lia|]. apply Forall_app; split; [exact F|constructor; [exact P1|constructor]].
    - split; [unfold begins; pose proof (Z.mod_pos_bound (count_ s) n ltac:(lia)); cbn [fst]; lia|constructor].
  Qed.
  Lemma checked_counts (s0 : Serie T) ss : safely (fun n => n = count_ s0 /\ forall s, In s (s0 :: ss) -> count_ s = count_ s0) (countAndCheck (s0 :: ss)).
  Proof.
    unfold countAndCheck. destruct (forallb _ ss) eqn:E; [|exact I]. split; [reflexivity|]. rewrite forallb_forall in E.
    intros s [<-|Hi]; [reflexivity|]. apply Z.eqb_eq, E, Hi.
  Qed.

  Theorem C162_partition_n : forall n,
    (forall s, sound s -> 1 <= n -> safely (Forall (fun p => sound p)) (partition_n n s)) /\
    (forall ss, Forall sound ss -> ss <> [] -> 0 <= n -> safely (Forall (Forall (fun p => sound p))) (partition_n_multi n ss)).
  Proof.
    intros n; split.
    - intros s Hs Hn; eapply safely_mono; [|apply safe_partition; assumption]. intros ps [F _]; eapply Forall_impl; [|exact F]; intros p Hp; exact (proj1 Hp).
    - intros ss Hs Hne Hn; unfold partition_n_multi. destruct (Z.eqb_spec n 0) as [|Hn0]; [exact I|].
      destruct ss as [|s0 ss]; [contradiction|]. eapply safely_bind; [apply checked_counts|]. intros c [-> Hc].
      eapply safely_fst; apply safely_mapO. intros s Hi. rewrite <- (Hc s Hi). apply safe_partition_one; [|lia].
      rewrite Forall_forall in Hs; auto.
  Qed.

  (** ** filter and reject over several Series, forEach over several Series *)
  Lemma safe_get_all ss i : Forall sound ss -> (forall s, In s ss -> 0 <= i < count_ s) -> safely (fun _ => True) (get_all ss i).
  Proof.
    intros Hs Hi; unfold get_all. eapply safely_mono; [|apply (safely_mapO (fun _ => True))]; [auto|]. intros s Hin. rewrite Forall_forall in Hs.
    eapply safely_mono; [|apply safe_get_array; [apply Hs, Hin|apply Hi, Hin]]; auto.
  Qed.
  Theorem C162_several : forall ss, Forall sound ss -> ss <> [] ->
    (forall cb, defined cb -> safely (Forall sound) (run (filter_n cb ss)) /\ safely (Forall sound) (run (reject_n cb ss)) ) /\
    (forall cb : list (list T) -> M unit bool, (forall x, run (cb x) <> UB) -> safely (Forall sound) (run (filterAll cb ss)) /\ safely (Forall sound) (run (rejectAll cb ss))) /\
    (forall cb, defined cb -> safely (fun _ => True) (run (forEach_n cb ss))).
  Proof.
    intros ss Hs Hne. destruct ss as [|s0 ss]; [contradiction|]. set (all := s0 :: ss) in *.
    destruct (sound_bounds s0 (Forall_inv Hs)) as (_ & B2 & _).
    assert (G : forall cb b, defined cb -> safely (Forall sound) (run (let! n := lift (countAndCheck all) in let! indices := collect (get_all all) cb b n in lift (mapO (fun s => take_v s indices) all)))).
    { intros cb b Hc; apply safelyM_run. eapply safelyM_bind; [apply safelyM_lift, checked_counts|]. intros n [-> Hn].
      eapply safelyM_bind; [apply safe_collect; [lia| |exact Hc]|].
      - intros i Hi; apply safe_get_all; [exact Hs|]. intros s Hin; rewrite (Hn s Hin); exact Hi.
      - intros l [Hl Fl]. apply safelyM_lift. eapply safely_fst; apply safely_mapO. intros s Hin.
        rewrite Forall_forall in Hs. apply safe_take; [apply Hs, Hin|rewrite (Hn s Hin); exact Hl|rewrite (Hn s Hin); exact Fl]. }
    split; [|split].
    - intros cb Hc; split; apply G; exact Hc.
    - intros cb Hc; split; apply (G (fun x _ => cb x)); intros x i; apply Hc.
    - intros cb Hc; unfold forEach_n; apply safelyM_run. eapply safelyM_bind; [apply safelyM_lift, checked_counts|]. intros n [-> Hn].
      eapply (safelyM_bind (fun _ => True)); [|intros; apply safelyM_ret; exact I].
      eapply safelyM_mono; [|apply (safelyM_mapM (fun _ => True))]; [auto|]. intros i Hi; apply in_iota in Hi.
      apply (safelyM_bind (fun _ => True)); [apply safelyM_lift, safe_get_all; [exact Hs|intros s Hin; rewrite (Hn s Hin); exact Hi]|]. intros x _; apply defined_safe, Hc.
  Qed.

  (** ** unzip *)
  Theorem C162_unzip : forall s ks, sound s -> Forall (fun k => 1 <= k) ks -> fold_right Z.add 0 ks < 4294967296 ->
    safely (Forall sound) (unzip s ks).
  Proof.
    intros s ks Hs Hk Hf; destruct (sound_bounds s Hs) as (B1 & B2 & B3 & B4 & B5 & B6 & B7 & B8 & B9 & B10). unfold unzip. destruct ks as [|k0 ks0]; [exact I|]. set (ks := k0 :: ks0) in *.
    assert (P : forall l, Forall (fun k => 1 <= k) l -> 0 <= fold_right Z.add 0 l) by (induction 1; cbn [fold_right]; lia).
    pose proof (P ks Hk) as P0. rewrite u32_small by lia. destruct (Z.eqb_spec (fold_right Z.add 0 ks) (itemSize s)) as [E|]; [|exact I]. unfold negb. rewrite B6 in E.
    apply (safely_bind (fun st => Forall sound (fst st))); [|auto].
    assert (ONE : forall c k, 1 <= k -> 0 <= c -> c + k <= itemSize_ s -> safely sound (unzip_one s c k)).
    { intros c k Hk1 Hc Hck; unfold unzip_one. rewrite s32_small by lia. change (count s) with (count_ s).
      assert (count_ s * k <= count_ s * itemSize_ s) by (apply Z.mul_le_mono_nonneg_l; lia).
      assert (Hr : sound (serie_n (T := T) k (count_ s) 3)) by (apply sound_n; lia).
      eapply safely_mono; [intros x Hx; refine (like_sound _ x _ Hr); exact Hx|].
      apply safely_foldO; [|apply like_refl]. intros a i Hi Ha; apply in_iota in Hi.
      assert (RD : forall j, 0 <= j < k -> safely (fun _ => True) (scalar s (u32 (u32 (u32 (i * itemSize s) + c) + j)))).
      { intros j Hj. destruct (sound_item s i Hs Hi (c + j) ltac:(lia)) as [R1 R2].
        assert (0 <= i * itemSize_ s) by (apply Z.mul_nonneg_nonneg; lia).
        assert (HI1 : (i + 1) * itemSize_ s <= count_ s * itemSize_ s) by (apply Z.mul_le_mono_nonneg_r; lia). rewrite Z.mul_add_distr_r, Z.mul_1_l in HI1.
        unfold scalar. destruct (_ <? _); [exact I|]. apply safely_rd. rewrite B6, (u32_small (i * itemSize_ s)), (u32_small (_ + c)), (u32_small (_ + j)) by lia. lia. }
      destruct (Z.eqb_spec k 1) as [->|].
      - apply (safely_bind (fun _ => True)); [specialize (RD 0 ltac:(lia)); rewrite Z.add_0_r in RD; rewrite (u32_small (u32 _)) in RD by apply u32_range; exact RD|]. intros x _.
        eapply safely_mono; [|apply safe_setScalar; lia]. intros b; apply like_trans; exact Ha.
      - eapply (safely_bind (fun _ => True)); [eapply safely_mono; [|apply (safely_mapO (fun _ => True))]; [auto|]; intros j Hj; apply in_iota in Hj; apply RD; exact Hj|]. intros v _.
        eapply safely_mono; [|apply safe_setValue; [exact (like_sound _ a Ha Hr)|lia]]. intros b; apply like_trans; exact Ha. }
    assert (G : forall l acc c, Forall (fun k => 1 <= k) l -> 0 <= c -> c + fold_right Z.add 0 l <= itemSize_ s -> Forall sound acc ->
      safely (fun st => Forall sound (fst st)) (foldO (fun (st : list (Serie T) * Z) k => let* x := unzip_one s (snd st) k in Ok (fst st ++ [x], u32 (snd st + k))) l (acc, c))).
    { induction l as [|k l IH]; intros acc c Hl Hc Hck Ha; [exact Ha|]. apply Forall_cons_iff in Hl as [H1 Hl]. pose proof (P l Hl). cbn [fold_right] in Hck. cbn [foldO fst snd].
      eapply safely_bind; [eapply safely_bind; [apply ONE; lia|]|].
      - intros x Hx. cbn [safely]. instantiate (1 := fun st => Forall sound (fst st) /\ snd st = u32 (c + k)). split; [|reflexivity]. cbn [fst]. apply Forall_app; split; [exact Ha|constructor; [exact Hx|constructor]].
      - intros [acc' c'] [Hx Ec]; cbn [fst snd] in *; subst c'. rewrite u32_small by lia. apply IH; [exact Hl|lia|lia|exact Hx]. }
    apply G; [exact Hk|lia|lia|constructor].
  Qed.

  (** ** insar *)
  Theorem C162_insar : forall s los, sound s ->
    (insar s los = UB <-> itemSize_ s = 3 /\ len los = 3 /\ len (s_ s) < 3) /\ (insar s los <> UB -> safely sound (insar s los)).
  Proof.
    intros s los Hs; destruct (sound_bounds s Hs) as (B1 & B2 & B3 & B4 & B5 & B6 & B7 & B8 & B9 & B10). unfold insar, isValid.
    destruct (Z.ltb_spec 0 (itemSize_ s)) as [P|P]; cbn [negb orb]; [|split; [split; [discriminate|lia]|intros _; exact sound_default]].
    rewrite B6. destruct (Z.eqb_spec (itemSize_ s) 3) as [E3|E3]; cbn [negb]; [|split; [split; [discriminate|lia]|intros _; exact sound_default]].
    destruct (Z.eqb_spec (len los) 3) as [El|El]; cbn [negb]; [|split; [split; [discriminate|lia]|intros _; exact sound_default]].
    unfold dot_array.
    destruct (Z.eq_dec (count_ s) 0) as [C0|C0].
    - assert (len (s_ s) < 3) by (destruct Hs as [(Hk & _)|(_ & _ & Hl & _)]; lia).
      assert (U : value s 0 = UB).
      { unfold value, read_item. rewrite E3. change (iota 3) with [0; 1; 2]. cbn [mapO]. change (0 * 3) with 0. change (u32 0) with 0. cbn [Z.add]. change (u32 0) with 0; change (u32 1) with 1; change (u32 2) with 2.
        pose proof (len_nonneg (s_ s)). destruct (s_ s) as [|a [|b [|c l]]]; [reflexivity..|]. exfalso; rewrite !len_cons in *. pose proof (len_nonneg l); lia. }
      rewrite U. split; [split; [intros _; auto|reflexivity]|]. intros N; exfalso; apply N; reflexivity.
    - assert (S : safely sound (let* a0 := value s 0 in if negb (len a0 =? len los) then Ok serie_default else run (map_vv (fun arr _ => lift (dot_item (itemSize s) arr los)) s))).
      { apply (safely_bind (fun v => len v = itemSize_ s)); [apply safe_value; [exact Hs|lia]|]. intros v Hv. destruct (negb (len v =? len los)); [exact sound_default|].
        apply safelyM_run. eapply safelyM_fst. apply safe_map_vv; [exact Hs|]. intros w i Hw Hi Hk. apply safelyM_lift. unfold dot_item.
        eapply safely_mono; [|apply (safely_foldO (fun r => len r = 1))]; [intros r Hr; cbn beta in *; lia| |reflexivity].
        intros r k Hk' Hr; apply in_iota in Hk'. rewrite B6 in Hk'.
        apply (safely_bind (fun _ => True)); [apply safely_rd; lia|intros x _]. apply (safely_bind (fun _ => True)); [apply safely_rd; lia|intros y _].
        apply (safely_bind (fun _ => True)); [apply safely_rd; lia|intros z _]. eapply safely_mono; [|apply safely_wr; lia]. intros q Hq; cbn beta in *; lia. }
      split; [split; [intros U; rewrite U in S; destruct S|]|intros _; exact S]. intros (_ & _ & L); exfalso. nia.
  Qed.

  (** ** eigenValues, eigenVectors, eigenSystem *)
  Lemma rd_app_l {A} (p l : list A) i : 0 <= i < len p -> rd (p ++ l) i = rd p i.
  Proof.
    intros Hi; destruct (rd_in_range p i Hi) as (x & E & N). rewrite E. apply rd_ok. split; [lia|].
    rewrite nth_error_app1; [exact N|unfold len in Hi; lia].
  Qed.
  Lemma mapO_all {A B} (f : A -> outcome B) l : (forall x, In x l -> exists y, f x = Ok y) -> exists r, mapO f l = Ok r.
  Proof.
    induction l as [|x l IH]; intros Hf; [exists []; reflexivity|]. destruct (Hf x (or_introl eq_refl)) as [y E]. destruct IH as [r R]; [intros z Hz; apply Hf; right; exact Hz|].
    exists (y :: r); simpl. rewrite E; cbn [obind]; rewrite R; reflexivity.
  Qed.
  Lemma reads_item s i : sound s -> 0 <= i < count_ s -> exists v, get_array s i = Ok v.
  Proof.
    intros Hs Hi; destruct (sound_bounds s Hs) as (B1 & B2 & B3 & B4 & B5 & B6 & B7 & B8 & B9 & B10). unfold get_array, read_item.
    destruct (Z.eqb_spec (itemSize_ s) 1) as [E1|]; [destruct (rd_in_range (s_ s) i ltac:(lia)) as (x & E & _); rewrite E; exists [x]; reflexivity|].
    destruct (Z.ltb_spec (itemSize_ s) 0); [lia|]. apply mapO_all. intros j Hj; apply in_iota in Hj.
    assert (i * itemSize_ s + itemSize_ s <= count_ s * itemSize_ s) by nia. assert (0 <= i * itemSize_ s) by nia.
    destruct (rd_in_range (s_ s) (u32 (u32 (i * itemSize_ s) + j))) as (x & E & _); [|exists x; exact E]. rewrite (u32_small (i * itemSize_ s)) by lia. rewrite u32_small by lia. lia.
  Qed.
  Lemma eigen3_long (mat : list T) : 6 <= len mat -> exists ev vecs, eigen3 mat = Ok (ev, vecs) /\ len ev = 3 /\ len vecs = 9.
  Proof.
    intros L. destruct mat as [|a [|b [|c [|e [|f [|g l]]]]]]; try (unfold len in L; cbn [length] in L; lia). unfold eigen3.
    assert (P : forall i, 0 <= i < 6 -> rd (a :: b :: c :: e :: f :: g :: l) i = rd [a; b; c; e; f; g] i) by (intros i Hi; apply (rd_app_l [a; b; c; e; f; g] l i Hi)).
    assert (E0 : load3 (a :: b :: c :: e :: f :: g :: l) = load3 [a; b; c; e; f; g]) by (unfold load3; rewrite !P by lia; reflexivity). rewrite E0. change (load3 [a; b; c; e; f; g]) with (Ok [a; b; e; c; f; g]). cbn [obind].
    destruct (symmetric_ok 3 [a; b; e; c; f; g] ltac:(lia) eq_refl) as (? & ? & ? & ? & ? & ev & ? & _ & _ & _ & _ & _ & L1 & E & L2).
    change (Z.of_nat 3) with 3 in E. eexists _, _; split; [exact E|]. unfold len. rewrite L1, L2. split; reflexivity.
  Qed.
  Lemma eigen2_long (mat : list T) : len mat = 3 -> exists ev vecs, eigen2 mat = Ok (ev, vecs) /\ len ev = 2 /\ len vecs = 4.
  Proof.
    intros L. destruct mat as [|a [|b [|c [|e l]]]]; try (unfold len in L; cbn [length] in L; lia). unfold eigen2.
    change (load2 [a; b; c]) with (Ok [a; b; c]). cbn [obind].
    destruct (symmetric_ok 2 [a; b; c] ltac:(lia) eq_refl) as (? & ? & ? & ? & ? & ev & ? & _ & _ & _ & _ & _ & L1 & E & L2).
    change (Z.of_nat 2) with 2 in E. eexists _, _; split; [exact E|]. unfold len. rewrite L1, L2. split; reflexivity.
  Qed.
  Lemma load3_short (mat : list T) : len mat < 6 -> load3 mat = UB.
  Proof. intros L. destruct mat as [|a [|b [|c [|e [|f [|g l]]]]]]; [reflexivity..|]. exfalso; rewrite !len_cons in L; pose proof (len_nonneg l); lia. Qed.
  Theorem C162_eigen : forall s, sound s -> count_ s * 9 < 4294967296 ->
    (eigenValues s = UB <-> dimension s <> 2 /\ dimension s <> 3 /\ itemSize_ s < 6 /\ 0 < count_ s) /\
    (eigenVectors s = UB <-> dimension s <> 2 /\ dimension s <> 3 /\ itemSize_ s < 6 /\ 0 < count_ s) /\
    (eigenValues s <> UB -> safely sound (eigenValues s)) /\ (eigenVectors s <> UB -> safely sound (eigenVectors s)) /\
    safely (fun r => sound (fst r) /\ sound (snd r)) (eigenSystem s).
  Proof.
    intros s Hs Hc; destruct (sound_bounds s Hs) as (B1 & B2 & B3 & B4 & B5 & B6 & B7 & _).
    unfold eigenValues, eigenVectors, eigenSystem, eigen_refused. rewrite B6. change (count s) with (count_ s).
    assert (FILL : forall eig (m v : Z), (forall mat, len mat = itemSize_ s -> exists ev vecs, eig mat = Ok (ev, vecs) /\ len ev = m /\ len vecs = v) -> 1 <= m <= 9 -> 1 <= v <= 9 ->
      safely (fun r => sound (fst r) /\ sound (snd r)) (eigen_fill eig s (serie_n m (count_ s) 3) (serie_n v (count_ s) 3))).
    { intros eig m v He Hm Hv; unfold eigen_fill.
      assert (SM : sound (serie_n (T := T) m (count_ s) 3)) by (apply sound_n; nia). assert (SV : sound (serie_n (T := T) v (count_ s) 3)) by (apply sound_n; nia).
      apply (safely_bind (fun r => sound (fst r) /\ sound (snd r))); [|intros r [H1 H2]; split; [destruct (fst r); exact H1|destruct (snd r); exact H2]].
      apply safely_foldO; [|split; assumption]. intros r i Hi [H1 H2]; apply in_iota in Hi.
      apply (safely_bind (fun w => len w = itemSize_ s)); [apply safe_get_array; assumption|]. intros mat Hmat. destruct (He mat Hmat) as (ev & vecs & E & _). rewrite E. cbn [obind fst snd].
      apply (safely_bind sound); [eapply safely_mono; [|apply safe_write; [exact H1|lia]]; intros b Hb; exact (like_sound _ _ Hb H1)|]. intros a Ha.
      apply (safely_bind sound); [eapply safely_mono; [|apply safe_write; [exact H2|lia]]; intros b Hb; exact (like_sound _ _ Hb H2)|]. intros b Hb. split; assumption. }
    assert (SAME : forall (cb : list T -> Z -> M unit (list T)) m, 1 <= m <= 9 -> (forall v i, len v = itemSize_ s -> 0 <= i < count_ s -> exists r, run (cb v i) = Ok r /\ len r = m) -> safely sound (run (map_vv cb s))).
    { intros cb m Hm Hcb. eapply safely_fst. apply (safe_map_same cb s m); [exact Hs|lia|nia|exact Hcb]. }
    assert (V3 : forall (f : list T * list T -> list T) m, 1 <= m <= 9 -> (forall ev vecs, len ev = 3 -> len vecs = 9 -> len (f (ev, vecs)) = m) -> 6 <= itemSize_ s \/ count_ s = 0 ->
      safely sound (run (map_vv (fun mat _ => lift (let* r := eigen3 mat in Ok (f r))) s))).
    { intros f m Hm Hf Hk. apply (SAME _ m Hm). intros v i Hv Hi. destruct (eigen3_long v ltac:(lia)) as (ev & vecs & E & L1 & L2). exists (f (ev, vecs)); split; [unfold run, lift; cbn [fst]; rewrite E; reflexivity|apply Hf; assumption]. }
    assert (V2 : forall (f : list T * list T -> list T) m, 1 <= m <= 9 -> (forall ev vecs, len ev = 2 -> len vecs = 4 -> len (f (ev, vecs)) = m) -> itemSize_ s = 3 ->
      safely sound (run (map_vv (fun mat _ => lift (let* r := eigen2 mat in Ok (f r))) s))).
    { intros f m Hm Hf Hk. apply (SAME _ m Hm). intros v i Hv Hi. destruct (eigen2_long v ltac:(lia)) as (ev & vecs & E & L1 & L2). exists (f (ev, vecs)); split; [unfold run, lift; cbn [fst]; rewrite E; reflexivity|apply Hf; assumption]. }
    assert (U3 : forall (f : list T * list T -> list T), itemSize_ s < 6 -> 0 < count_ s -> run (map_vv (fun mat _ => lift (let* r := eigen3 mat in Ok (f r))) s) = UB).
    { intros f Hk H0. unfold run, map_vv, map_arr. change (count s) with (count_ s). destruct (Z.eqb_spec (count_ s) 0); [lia|].
      pose proof (safe_get_array s 0 Hs ltac:(lia)) as G. unfold mbind at 1, lift at 1.
      assert (NT : exists v, get_array s 0 = Ok v) by (apply reads_item; [exact Hs|lia]).
      destruct NT as [v Ev]. rewrite Ev in *. cbn [safely] in G. unfold mbind at 1, lift at 1. unfold eigen3. rewrite load3_short by lia. reflexivity. }
    destruct (Z.eqb_spec (dimension s) 2) as [D2|D2]; destruct (Z.eqb_spec (dimension s) 3) as [D3|D3]; try lia; cbn [andb orb].
    - destruct (Z.eqb_spec (itemSize_ s) 3) as [K|K]; cbn [negb orb]; [|repeat split; try discriminate; try lia; try (intros; exact I)].
      pose proof (V2 fst 2 ltac:(lia) ltac:(auto) K) as A1. pose proof (V2 snd 4 ltac:(lia) ltac:(auto) K) as A2.
      split; [split; [intros U; rewrite U in A1; destruct A1|lia]|]. split; [split; [intros U; rewrite U in A2; destruct A2|lia]|]. split; [intros _; exact A1|]. split; [intros _; exact A2|].
      apply FILL; [|lia|lia]. intros mat Hm; apply eigen2_long; lia.
    - destruct (Z.eqb_spec (itemSize_ s) 6) as [K|K]; cbn [negb orb]; [|repeat split; try discriminate; try lia; try (intros; exact I)].
      pose proof (V3 fst 3 ltac:(lia) ltac:(auto) ltac:(lia)) as A1. pose proof (V3 snd 9 ltac:(lia) ltac:(auto) ltac:(lia)) as A2.
      split; [split; [intros U; rewrite U in A1; destruct A1|lia]|]. split; [split; [intros U; rewrite U in A2; destruct A2|lia]|]. split; [intros _; exact A1|]. split; [intros _; exact A2|].
      apply FILL; [|lia|lia]. intros mat Hm; apply eigen3_long; lia.
    - destruct (Z_lt_le_dec (itemSize_ s) 6) as [K|K]; [destruct (Z.eq_dec (count_ s) 0) as [C|C]|].
      + pose proof (V3 fst 3 ltac:(lia) ltac:(auto) ltac:(lia)) as A1. pose proof (V3 snd 9 ltac:(lia) ltac:(auto) ltac:(lia)) as A2.
        split; [split; [intros U; rewrite U in A1; destruct A1|lia]|]. split; [split; [intros U; rewrite U in A2; destruct A2|lia]|]. split; [intros _; exact A1|]. split; [intros _; exact A2|]. split; exact sound_default.
      + rewrite !U3 by lia. split; [split; [intros _; lia|reflexivity]|]. split; [split; [intros _; lia|reflexivity]|]. split; [congruence|]. split; [congruence|]. split; exact sound_default.
      + pose proof (V3 fst 3 ltac:(lia) ltac:(auto) ltac:(lia)) as A1. pose proof (V3 snd 9 ltac:(lia) ltac:(auto) ltac:(lia)) as A2.
        split; [split; [intros U; rewrite U in A1; destruct A1|lia]|]. split; [split; [intros U; rewrite U in A2; destruct A2|lia]|]. split; [intros _; exact A1|]. split; [intros _; exact A2|]. split; exact sound_default.
  Qed.

  (** ** sort *)
  Lemma items_all s : sound s -> exists rows, mapO (get_array s) (iota (count_ s)) = Ok rows /\ Forall (fun r => len r = itemSize_ s) rows /\ len rows = count_ s.
  Proof.
    intros Hs; destruct (sound_bounds s Hs) as (B1 & B2 & _). destruct (mapO_all (get_array s) (iota (count_ s))) as [rows E]; [intros i Hi; apply in_iota in Hi; apply reads_item; assumption|].
    exists rows; split; [exact E|]. pose proof (safely_mapO (fun r => len r = itemSize_ s) (get_array s) (iota (count_ s))) as G. rewrite E in G.
    destruct G as [G1 G2]; [intros i Hi; apply in_iota in Hi; apply safe_get_array; assumption|]. split; [exact G1|]. rewrite G2, len_iota; lia.
  Qed.
  Lemma numbers_all s : sound s -> itemSize_ s = 1 -> mapO (get_double s) (iota (count_ s)) = Ok (s_ s).
  Proof.
    intros Hs E1; destruct (sound_bounds s Hs) as (B1 & B2 & B3 & B4 & B5 & B6 & B7 & B8 & B9 & B10). rewrite <- (mapO_rd_iota (s_ s)), <- (B9 E1) at 1.
    apply mapO_ext. intros i Hi; apply in_iota in Hi. unfold get_double. destruct (Z.leb_spec (len (s_ s)) i); [lia|reflexivity].
  Qed.
  Theorem C162_sort : forall (sorter : Sorter) comp s, conforms sorter -> sound s ->
    (itemSize_ s = 0 -> sort_by sorter comp s = Ok serie_default) /\
    (itemSize_ s = 1 -> (sort_by sorter comp s = UB <-> swo_on n_ltb (s_ s) = false)) /\
    (2 <= itemSize_ s -> exists items, mapO (get_array s) (iota (count_ s)) = Ok items /\ (sort_by sorter comp s = UB <-> swo_on comp items = false)) /\
    (sort_by sorter comp s <> UB -> safely sound (sort_by sorter comp s)).
  Proof.
    intros sorter comp s Hc Hs; destruct (sound_bounds s Hs) as (B1 & B2 & B3 & B4 & B5 & B6 & B7 & B8 & B9 & B10). destruct (items_all s Hs) as (rows & E & F & L). pose proof (numbers_all s Hs) as N.
    unfold sort_by, isValid. rewrite B7, B6. change (count s) with (count_ s).
    destruct (Z.ltb_spec 0 (itemSize_ s)); cbn [negb]; [|repeat split; try lia; intros; exact sound_default].
    destruct (Z.eqb_spec (itemSize_ s) 1) as [E1|E1].
    - rewrite (N E1). cbn [obind]. unfold std_sort. destruct (swo_on n_ltb (s_ s)) eqn:W; cbn [obind]; [|repeat split; try lia; try congruence].
      assert (S : safely sound (serie_of 1 (sorter T n_ltb (s_ s)) 3)).
      { eapply safely_fst, safe_of; [lia|]. destruct (Hc T n_ltb (s_ s) W) as [P _]. unfold len in *. rewrite <- (Permutation_length P). lia. }
      split; [lia|]. split; [intros _; split; [intros U; rewrite U in S; destruct S|discriminate]|]. split; [lia|intros _; exact S].
    - rewrite E. cbn [obind]. unfold std_sort. destruct (swo_on comp rows) eqn:W; cbn [obind].
      + assert (S : safely sound (serie_of (itemSize_ s) (concat (sorter (list T) comp rows)) 3)).
        { eapply safely_fst, safe_of; [lia|]. destruct (Hc (list T) comp rows W) as [P _].
          assert (F' : Forall (fun r => len r = itemSize_ s) (sorter (list T) comp rows)) by (eapply Permutation_Forall; eassumption).
          assert (L' : len (sorter (list T) comp rows) = count_ s) by (rewrite <- L; unfold len; rewrite (Permutation_length P); reflexivity).
          assert (G : forall l : list (list T), Forall (fun r => len r = itemSize_ s) l -> len (concat l) = len l * itemSize_ s).
          { induction 1 as [|r l Hr FF IH]; [reflexivity|]. cbn [concat]. rewrite len_app, len_cons, IH, Hr. lia. }
          rewrite (G _ F'), L'. lia. }
        split; [lia|]. split; [lia|]. split; [intros _; exists rows; split; [reflexivity|]; split; [intros U; rewrite U in S; destruct S|congruence]|intros _; exact S].
      + split; [lia|]. split; [lia|]. split; [intros _; exists rows; split; [reflexivity|]; split; auto|congruence].
  Qed.

  (** ** approximatelyEquals *)
  Lemma std_equal_UB (p : T -> T -> bool) a : forall b, std_equal p a b = UB <-> (length b < length a)%nat /\ Forall2 (fun x y => p x y = true) (firstn (length b) a) b.
  Proof.
    induction a as [|x a IH]; intros b; cbn [std_equal length]; [split; [discriminate|lia]|]. destruct b as [|y b]; cbn [length firstn]; [split; [intros _; split; [lia|constructor]|reflexivity]|].
    destruct (p x y) eqn:E; [rewrite IH; split; [intros [L F]; split; [lia|constructor; assumption]|intros [L F]; split; [lia|inversion F; assumption]]|].
    split; [discriminate|]. intros [_ F]; inversion F; congruence.
  Qed.
  Theorem C162_approximately : forall s t e,
    (approximatelyEquals s t e = UB <->
     isValid s = true /\ isValid t = true /\ itemSize s = itemSize t /\ count s = count t /\ dimension s = dimension t /\
     (length (s_ t) < length (s_ s))%nat /\ Forall2 (fun x y => within e x y = true) (firstn (length (s_ t)) (s_ s)) (s_ t)) /\
    (sound s -> sound t -> len (s_ s) = count_ s * itemSize_ s -> approximatelyEquals s t e <> UB).
  Proof.
    intros s t e.
    assert (X : approximatelyEquals s t e = UB <->
     isValid s = true /\ isValid t = true /\ itemSize s = itemSize t /\ count s = count t /\ dimension s = dimension t /\
     (length (s_ t) < length (s_ s))%nat /\ Forall2 (fun x y => within e x y = true) (firstn (length (s_ t)) (s_ s)) (s_ t)).
    { unfold approximatelyEquals, same_shape, asArray. rewrite <- std_equal_UB.
      destruct (isValid s); [|split; [discriminate|intros (A & _); discriminate]]. destruct (isValid t); [|split; [discriminate|intros (_ & A & _); discriminate]].
      destruct (Z.eqb_spec (itemSize s) (itemSize t)); [|split; [discriminate|tauto]]. destruct (Z.eqb_spec (count s) (count t)); [|split; [discriminate|tauto]].
      destruct (Z.eqb_spec (dimension s) (dimension t)); [|split; [discriminate|tauto]]. cbn [andb]. tauto. }
    split; [exact X|]. intros Hs Ht Hl U. apply X in U as (_ & _ & Ek & Ec & _ & L & _).
    destruct (sound_bounds s Hs) as (_ & _ & _ & _ & _ & B6 & _); destruct (sound_bounds t Ht) as (_ & _ & C3 & _ & _ & C6 & _). unfold count in Ec. rewrite B6, C6 in Ek. rewrite Ek, Ec in Hl. unfold len in *. lia.
  Qed.

  (** ** parallel_execute *)
  Theorem C162_parallel : forall (J : Type) (init : Serie T -> J) (step : J -> J + outcome (Serie T)) s n sched o, sound s ->
    (forall p r, sound p -> comes_to step (init p) r -> safely (fun q => sound q /\ len (s_ q) <= len (s_ p)) r) ->
    parallel_execute init step sched s n = Some o -> safely sound o.
  Proof.
    intros J init step s n sched o Hs Hf E; destruct (sound_bounds s Hs) as (B1 & B2 & B3 & B4 & _). unfold parallel_execute in E.
    destruct (Z.ltb_spec n 1); [injection E as <-; exact I|]. destruct (Z.eqb_spec n 1).
    - apply run_alone_comes_to in E. eapply safely_fst, Hf; [exact Hs|exact E].
    - pose proof (safe_partition n s Hs ltac:(lia)) as P. destruct (partition_n n s) as [ps|e|]; [|injection E as <-; exact I|destruct P].
      cbn [safely] in P. destruct P as [FP NP]. destruct (finished _) as [os|] eqn:Fi; [|discriminate]. injection E as <-.
      apply (finished_ends step), (run_ends step) in Fi.
      assert (G : forall os, Forall2 (Props_Parallel.ends step) (map (launch init) ps) os -> existsb is_UB os = false /\ forall rs, mapO (fun o => o) os = Ok rs -> Forall sound rs /\ numbers rs <= numbers ps).
      { clear - FP Hf. induction FP as [|p ps Hp FP IH]; intros os F; inversion F; subst; [split; [reflexivity|]; intros rs E; injection E as <-; split; [constructor|reflexivity]|].
        destruct (IH _ ltac:(eassumption)) as [U R]. match goal with X : Props_Parallel.ends _ _ _ |- _ => destruct X as (r & Hr & ->) end. specialize (Hf p r (proj1 Hp) Hr).
        destruct r as [q|e|]; [| |destruct Hf]; cbn [job_result safely] in *.
        - cbn [existsb]. destruct (count q =? count p); cbn [is_UB orb]; split; try exact U.
          + intros rs E; cbn [mapO obind] in E. destruct (mapO _ l') as [rs'|e|]; try discriminate. injection E as <-. destruct (R rs' eq_refl) as [R1 R2].
            split; [constructor; [apply Hf|exact R1]|]. change (numbers (q :: rs')) with (len (s_ q) + numbers rs'). change (numbers (p :: ps)) with (len (s_ p) + numbers ps). lia.
          + intros rs E; discriminate.
        - cbn [existsb]. destruct (std_exn e); cbn [is_UB orb]; split; try exact U; intros rs E; discriminate. }
      destruct (G os Fi) as [U R]. unfold finish, gather. rewrite U. destruct (mapO _ os) as [rs|e|] eqn:Er; [|exact I|].
      + cbn [obind]. destruct (negb _); [exact I|]. destruct (R rs eq_refl) as [R1 R2]. destruct rs as [|r0 rs]; [exact I|].
        apply (C153_joins (r0 :: rs) R1); [discriminate|lia].
      + exfalso. clear - U Er. induction os as [|x os IH]; [discriminate|]. cbn [existsb] in U. apply orb_false_iff in U as [U1 U2]. cbn [mapO] in Er. destruct x as [q|e|]; [|discriminate|discriminate].
        cbn [obind] in Er. destruct (mapO _ os); [discriminate|discriminate|]. apply IH; [exact U2|reflexivity].
  Qed.

  (** ** the grids *)
  Lemma safe_spacings npts (extent : Z -> outcome T) : len npts <= 3 -> (forall i, 0 <= i < len npts -> safely (fun _ => True) (extent i)) ->
    safely (fun l => len l = 3) (spacings npts extent).
  Proof.
    intros Hl He; unfold spacings. apply safely_foldO; [|rewrite len_replicate; lia]. intros a i Hi Ha; apply in_iota in Hi.
    apply (safely_bind (fun _ => True)); [apply safely_rd; lia|intros k _].
    apply (safely_bind (fun _ => True)); [|intros d _; eapply safely_mono; [|apply safely_wr; lia]; intros b Hb; cbn beta in *; lia].
    destruct (1 <? k); [|exact I]. apply (safely_bind (fun _ => True)); [apply He; lia|intros e _; exact I].
  Qed.
  Lemma safe_fill n (point : Z -> Z -> Z -> outcome (list T)) r0 : len n = 3 -> sound r0 -> (forall i j k, safely (fun _ => True) (point i j k)) ->
    safely sound (fill_grid n point r0).
  Proof.
    intros Hn Hr Hp; unfold fill_grid.
    apply (safely_bind (fun _ => True)); [apply safely_rd; lia|intros n2 _]. apply (safely_bind (fun _ => True)); [apply safely_rd; lia|intros n1 _]. apply (safely_bind (fun _ => True)); [apply safely_rd; lia|intros n0 _].
    apply (safely_bind (fun st => sound (fst st) /\ 0 <= snd st)); [|intros st [A _]; exact A].
    assert (S0 : sound (fst (r0, 0)) /\ 0 <= snd (r0, 0)) by (split; [exact Hr|cbn [snd]; lia]).
    apply safely_foldO; [|exact S0]. intros st2 k _ S2. apply safely_foldO; [|exact S2]. intros st1 j _ S1. apply safely_foldO; [|exact S1]. intros [r ix] i _ [Sr Si]. cbn [fst snd] in *.
    apply (safely_bind (fun _ => True)); [apply Hp|intros p _]. apply (safely_bind sound); [eapply safely_mono; [|apply safe_write; [exact Sr|exact Si]]; intros b Hb; exact (like_sound _ _ Hb Sr)|].
    intros b Hb; split; [exact Hb|]. unfold u32. apply Z.mod_pos_bound; reflexivity.
  Qed.
  Theorem C162_grids : forall npts (a b : list T), Forall (fun n => 0 <= n < 4294967296) npts -> fold_right Z.mul 1 npts * 3 < 4294967296 ->
    safely sound (from_dims npts a b) /\ safely sound (from_points npts a b).
  Proof.
    intros npts a b Hn Hp.
    assert (TP : total_points npts = fold_right Z.mul 1 npts /\ 0 <= fold_right Z.mul 1 npts).
    { unfold total_points. assert (G : forall l t, Forall (fun n => 0 <= n < 4294967296) l -> 0 <= t -> 0 <= fold_right Z.mul 1 l).
      { intros l t F; induction F as [|x l Hx F IH]; cbn [fold_right]; nia. }
      pose proof (G npts 1 Hn ltac:(lia)) as P0. split; [|exact P0].
      assert (M : forall l t, 0 <= t < 4294967296 -> 0 <= fold_left (fun total n => u32 (total * n)) l t < 4294967296 /\
        u32 (fold_left (fun total n => u32 (total * n)) l t) = u32 (t * fold_right Z.mul 1 l)).
      { induction l as [|x l IH]; intros t Ht; cbn [fold_left fold_right]; [split; [exact Ht|f_equal; lia]|].
        destruct (IH (u32 (t * x))) as [I1 I2]; [unfold u32; apply Z.mod_pos_bound; reflexivity|]. split; [exact I1|]. rewrite I2. unfold u32. rewrite Zmult_mod_idemp_l. f_equal. ring. }
      destruct (M npts 1 ltac:(lia)) as [M1 M2]. rewrite Z.mul_1_l in M2. rewrite (u32_small (fold_right _ _ _)) in M2 by lia. rewrite u32_small in M2 by lia. exact M2. }
    destruct TP as [TP P0].
    assert (S : sound (serie_n (T := T) 3 (total_points npts) 3)) by (rewrite TP; apply sound_n; lia).
    unfold from_dims, from_points. destruct (Z.eqb_spec (len npts) 0); [split; exact I|]. destruct (Z.ltb_spec 3 (len npts)); [split; exact I|]. cbn [orb].
    destruct (Z.eqb_spec (len a) 3) as [La|]; [|split; exact I]. destruct (Z.eqb_spec (len b) 3) as [Lb|]; [|split; exact I]. cbn [negb orb]. pose proof (len_nonneg npts).
    assert (L3 : len (resized npts) = 3) by (unfold resized; rewrite len_app, len_replicate by lia; lia).
    split.
    - apply (safely_bind (fun l => len l = 3)); [apply safe_spacings; [lia|]; intros i Hi; apply safely_rd; lia|]. intros sp Hsp. apply safe_fill; [exact L3|exact S|]. intros i j k.
      assert (Co : forall d i, 0 <= d < 3 -> safely (fun _ => True) (let* c := rd a d in let* e := rd b d in let* w := rd sp d in Ok (c [-] e [/] n_of_Z 2 [+] n_of_Z i [*] w))).
      { intros d i' Hd. apply (safely_bind (fun _ => True)); [apply safely_rd; lia|intros c _]. apply (safely_bind (fun _ => True)); [apply safely_rd; lia|intros e _]. apply (safely_bind (fun _ => True)); [apply safely_rd; lia|intros w _; exact I]. }
      apply (safely_bind (fun _ => True)); [apply Co; lia|intros x _]. apply (safely_bind (fun _ => True)); [apply Co; lia|intros y _]. apply (safely_bind (fun _ => True)); [apply Co; lia|intros z _; exact I].
    - apply (safely_bind (fun l => len l = 3)); [apply safe_spacings; [lia|]; intros i Hi; apply (safely_bind (fun _ => True)); [apply safely_rd; lia|intros x _]; apply (safely_bind (fun _ => True)); [apply safely_rd; lia|intros y _; exact I]|].
      intros sp Hsp. apply safe_fill; [exact L3|exact S|]. intros i j k.
      assert (Co : forall d i, 0 <= d < 3 -> safely (fun _ => True) (let* c := rd a d in let* w := rd sp d in Ok (c [+] n_of_Z i [*] w))).
      { intros d i' Hd. apply (safely_bind (fun _ => True)); [apply safely_rd; lia|intros c _]. apply (safely_bind (fun _ => True)); [apply safely_rd; lia|intros w _; exact I]. }
      apply (safely_bind (fun _ => True)); [apply Co; lia|intros x _]. apply (safely_bind (fun _ => True)); [apply Co; lia|intros y _]. apply (safely_bind (fun _ => True)); [apply Co; lia|intros z _; exact I].
  Qed.

  (** ** random *)
  Theorem C162_random : forall St (draw : M St T) n k st, 0 <= n -> 1 <= k < 2147483648 -> n * k < 4294967296 ->
    (forall st, fst (draw st) <> UB) -> safely (fun r => sound r /\ count_ r = n /\ itemSize_ r = k) (fst (random draw n k st)).
  Proof.
    intros St draw n k st Hn Hk Hnk Hd; unfold random. rewrite (s32_small k) by lia.
    assert (S : sound (serie_n (T := T) k n 3)) by (apply sound_n; lia).
    assert (D : safelyM (fun _ => True) draw) by (intros st'; apply safely_any, Hd).
    eapply safely_mono; [|refine (safelyM_foldM (like (serie_n k n 3)) _ _ _ _ _ st)]; [| |apply like_refl].
    - intros r Hl; split; [exact (like_sound _ _ Hl S)|]. destruct Hl as (L1 & L2 & L3). rewrite L1, L2. split; reflexivity.
    - intros a i Hi Ha; apply in_iota in Hi. destruct (k =? 1).
      + apply (safelyM_bind (fun _ => True)); [exact D|intros x _]. apply safelyM_lift. eapply safely_mono; [|apply safe_set_double; lia]. intros b; apply like_trans; exact Ha.
      + apply (safelyM_bind (fun r => Forall (fun _ => True) r /\ len r = len (iota k))); [apply safelyM_mapM; intros; exact D|intros v _]. apply safelyM_lift.
        eapply safely_mono; [|apply safe_write; [exact (like_sound _ a Ha S)|lia]]. intros b; apply like_trans; exact Ha.
  Qed.

  (** a Serie with one number left over, parted in two; the Series of the undefined calls are sound *)
  Example C162_ex : forall x y z : T,
    let left_over := {| s_ := [x; y; z; x; y]; count_ := 2; dimension_ := 3; itemSize_ := 2 |} in
    sound left_over /\
    partition_n 2 left_over = Ok [mk 2 [[x; y]] 3; mk 2 [[z; x]] 3] /\
    parallel_execute (fun s => s) (fun s => inr (Ok s)) [0%nat; 1%nat] left_over 2 = Some (Ok (mk 2 [[x; y]; [z; x]] 3)) /\
    unzip left_over [1; 1] = Ok [mk 1 [[x]; [z]] 3; mk 1 [[y]; [x]] 3] /\
    sound {| s_ := [x; y]; count_ := 0; dimension_ := 3; itemSize_ := 3 |} /\
    insar {| s_ := [x; y]; count_ := 0; dimension_ := 3; itemSize_ := 3 |} [x; y; z] = UB /\
    sound {| s_ := [x]; count_ := 1; dimension_ := 4; itemSize_ := 1 |} /\
    eigenValues {| s_ := [x]; count_ := 1; dimension_ := 4; itemSize_ := 1 |} = UB /\
    safely sound (from_points [2; 3] [x; y; z] [z; y; x]) /\ (match from_points [2; 3] [x; y; z] [z; y; x] with Ok g => count_ g = 6 | _ => False end) /\
    (exists r, random (fun st : unit => (Ok x, st)) 2 3 tt = (Ok r, tt) /\ r = mk 3 [[x; x; x]; [x; x; x]] 3).
  Proof.
    intros x y z left_over. split; [right; cbn; unfold len; cbn [length]; lia|]. do 3 (split; [reflexivity|]).
    split; [right; cbn; unfold len; cbn [length]; lia|]. split; [reflexivity|].
    split; [right; cbn; unfold len; cbn [length]; lia|]. split; [reflexivity|].
    split; [apply C162_grids; [repeat constructor; lia|reflexivity]|]. split; [vm_compute; reflexivity|]. eexists; split; reflexivity.
  Qed.
End More.
Print Assumptions C162_partition_n.
Print Assumptions C162_several.
Print Assumptions C162_unzip.
Print Assumptions C162_insar.
Print Assumptions C162_eigen.
Print Assumptions C162_sort.
Print Assumptions C162_approximately.
Print Assumptions C162_parallel.
Print Assumptions C162_grids.
Print Assumptions C162_random.
