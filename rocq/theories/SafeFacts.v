(** * Ends of a computation, and Series in a sound state: facts for Props_Safe.v. *)
From Coq Require Import ZArith List Lia Bool.
From Verif Require Import Base Num Serie Functional Mathf Algebra Stats Geo Spec BaseFacts.
Import ListNotations.
Open Scope Z_scope.

(** the computation is defined, and its result, if it has one, satisfies [P] *)
Definition safely {A} (P : A -> Prop) (o : outcome A) : Prop :=
  match o with Ok a => P a | Throw _ => True | UB => False end.
Definition safelyM {St A} (P : A -> Prop) (m : M St A) : Prop := forall st, safely P (fst (m st)).

Section Ends.
  Lemma safely_mono {A} (P Q : A -> Prop) o : (forall a, P a -> Q a) -> safely P o -> safely Q o.
  Proof. destruct o; simpl; auto. Qed.
  Lemma safely_ub {A} (P : A -> Prop) o : safely P o -> o <> UB.
  Proof. destruct o; simpl; intuition discriminate. Qed.
  Lemma safely_any {A} (o : outcome A) : o <> UB -> safely (fun _ => True) o.
  Proof. destruct o; simpl; auto. Qed.
  Lemma safely_bind {A B} (P : A -> Prop) (Q : B -> Prop) o f :
    safely P o -> (forall a, P a -> safely Q (f a)) -> safely Q (let* a := o in f a).
  Proof. destruct o; simpl; auto. Qed.
  Lemma safely_rd {A} (l : list A) i : 0 <= i < len l -> safely (fun _ => True) (rd l i).
  Proof. intros Hi; destruct (rd_in_range l i Hi) as (x & -> & _); exact I. Qed.
  Lemma safely_wr {A} (l : list A) i x : 0 <= i < len l -> safely (fun r => len r = len l) (wr l i x).
  Proof. intros Hi; rewrite (wr_ok l i x Hi); simpl; apply len_upd. Qed.
  Lemma safely_foldO {A B} (I : A -> Prop) (f : A -> B -> outcome A) l a :
    (forall a x, In x l -> I a -> safely I (f a x)) -> I a -> safely I (foldO f l a).
  Proof.
    revert a; induction l as [|x l IH]; intros a Hf Ha; [exact Ha|].
    simpl; apply (safely_bind I); [apply Hf; [left; reflexivity|exact Ha]|].
    intros b Hb; apply IH; [intros c y Hy; apply Hf; right; exact Hy|exact Hb].
  Qed.
  Lemma safely_mapO {A B} (P : B -> Prop) (f : A -> outcome B) l :
    (forall x, In x l -> safely P (f x)) -> safely (fun r => Forall P r /\ len r = len l) (mapO f l).
  Proof.
    induction l as [|x l IH]; intros Hf; [split; [constructor|reflexivity]|].
    simpl; apply (safely_bind P); [apply Hf; left; reflexivity|].
    intros b Hb; apply (safely_bind (fun r => Forall P r /\ len r = len l));
      [apply IH; intros y Hy; apply Hf; right; exact Hy|].
    intros r [Hr El]; simpl; split; [constructor; assumption|rewrite !len_cons; lia].
  Qed.

  Lemma safelyM_bind {St A B} (P : A -> Prop) (Q : B -> Prop) (m : M St A) (f : A -> M St B) :
    safelyM P m -> (forall a, P a -> safelyM Q (f a)) -> safelyM Q (mbind m f).
  Proof.
    intros Hm Hf st; specialize (Hm st); unfold mbind.
    destruct (m st) as [[a|e|] st1]; simpl in *; [apply Hf; exact Hm|exact Hm|exact Hm].
  Qed.
  Lemma safelyM_lift {St A} (P : A -> Prop) o : safely P o -> safelyM P (@lift St A o).
  Proof. intros Ho st; exact Ho. Qed.
  Lemma safelyM_ret {St A} (P : A -> Prop) a : P a -> safelyM P (@ret St A a).
  Proof. intros Ho st; exact Ho. Qed.
  Lemma safelyM_throw {St A} (P : A -> Prop) e : safelyM P (@throwM St A e).
  Proof. intros st; exact I. Qed.
  Lemma safelyM_run {A} (P : A -> Prop) m : safelyM P m -> safely P (@run A m).
  Proof. intros Hm; apply Hm. Qed.
  Lemma safelyM_mono {St A} (P Q : A -> Prop) (m : M St A) : (forall a, P a -> Q a) -> safelyM P m -> safelyM Q m.
  Proof. intros H Hm st; apply (safely_mono P); [exact H|apply Hm]. Qed.
  Lemma safelyM_fst {St A} (P Q : A -> Prop) (m : M St A) : safelyM (fun a => P a /\ Q a) m -> safelyM P m.
  Proof. apply safelyM_mono; intros a Ha; exact (proj1 Ha). Qed.
  Lemma safelyM_foldM {St A B} (I : A -> Prop) (f : A -> B -> M St A) l a :
    (forall a x, In x l -> I a -> safelyM I (f a x)) -> I a -> safelyM I (foldM f l a).
  Proof.
    revert a; induction l as [|x l IH]; intros a Hf Ha; [intros st; exact Ha|].
    simpl; apply (safelyM_bind I); [apply Hf; [left; reflexivity|exact Ha]|].
    intros b Hb; apply IH; [intros c y Hy; apply Hf; right; exact Hy|exact Hb].
  Qed.
  Lemma safelyM_mapM {St A B} (P : B -> Prop) (f : A -> M St B) l :
    (forall x, In x l -> safelyM P (f x)) -> safelyM (fun r => Forall P r /\ len r = len l) (mapM f l).
  Proof.
    induction l as [|x l IH]; intros Hf; [intros st; split; [constructor|reflexivity]|].
    simpl; apply (safelyM_bind P); [apply Hf; left; reflexivity|].
    intros b Hb; apply (safelyM_bind (fun r => Forall P r /\ len r = len l));
      [apply IH; intros y Hy; apply Hf; right; exact Hy|].
    intros r [Hr El]; apply safelyM_ret; split; [constructor; assumption|rewrite !len_cons; lia].
  Qed.
End Ends.

(** A Serie as the constructors leave it: either nothing at all, or items of at least one number, all of them in the storage, which
    holds at most an incomplete further item; sizes fit in the C++ types. *)
Definition sound {T} (s : Serie T) : Prop :=
  (itemSize_ s = 0 /\ count_ s = 0 /\ s_ s = []) \/
  (1 <= itemSize_ s < 2147483648 /\ 0 <= count_ s /\
   count_ s * itemSize_ s <= len (s_ s) < count_ s * itemSize_ s + itemSize_ s /\
   len (s_ s) < 4294967296).

Section Sound.
  Context {T : Type} `{Num T}.
  Implicit Types s : Serie T.

  Lemma sound_bounds s : sound s ->
    0 <= itemSize_ s < 2147483648 /\ 0 <= count_ s < 4294967296 /\ 0 <= count_ s * itemSize_ s <= len (s_ s) /\
    len (s_ s) < 4294967296 /\ (itemSize_ s = 0 -> count_ s = 0) /\ itemSize s = itemSize_ s /\ s32 (itemSize s) = itemSize_ s /\
    size s = count_ s * itemSize_ s /\ (itemSize_ s = 1 -> len (s_ s) = count_ s) /\ count_ s <= count_ s * itemSize_ s.
  Proof.
    assert (E : forall k, 0 <= k < 2147483648 -> u32 k = k /\ s32 (u32 k) = k)
      by (intros k Hk; rewrite u32_small by lia; split; [reflexivity|apply s32_small; lia]).
    unfold itemSize, size; intros [(Ek & Ec & Es)|(Hk & Hc & Hl & Hm)].
    - rewrite Ek, Ec, Es. change (len (@nil T)) with 0. destruct (E 0) as [E1 E2]; [lia|].
      rewrite E1 in *; rewrite E2. repeat split; try lia.
    - destruct (E (itemSize_ s)) as [E1 E2]; [lia|].
      assert (count_ s <= count_ s * itemSize_ s) by nia.
      rewrite E1 in *; rewrite E2. rewrite u32_small by lia. repeat split; try lia; try nia.
  Qed.

  Lemma sound_item s i : sound s -> 0 <= i < count_ s ->
    forall j, 0 <= j < itemSize_ s -> 0 <= u32 (u32 (i * itemSize_ s) + j) < len (s_ s) /\
      u32 (u32 (i * itemSize_ s) + j) = i * itemSize_ s + j.
  Proof.
    intros Hs Hi j Hj; destruct (sound_bounds s Hs) as (B1 & B2 & B3 & B4 & _).
    assert (0 <= i * itemSize_ s) by nia.
    assert (i * itemSize_ s + itemSize_ s <= count_ s * itemSize_ s) by nia.
    rewrite (u32_small (i * itemSize_ s)) by lia. rewrite u32_small by lia. lia.
  Qed.

  Lemma safe_read s i : sound s -> 0 <= i < count_ s -> safely (fun v => len v = itemSize_ s) (read_item s i).
  Proof.
    intros Hs Hi; destruct (sound_bounds s Hs) as (B1 & _). unfold read_item.
    destruct (Z.ltb_spec (itemSize_ s) 0); [exact I|].
    eapply safely_mono; [|apply (safely_mapO (fun _ => True))].
    - intros v [_ E]; rewrite E; apply len_iota; lia.
    - intros j Hj; apply in_iota in Hj. apply safely_rd, (sound_item s i Hs Hi j Hj).
  Qed.
  Lemma safe_value s i : sound s -> 0 <= i < count_ s -> safely (fun v => len v = itemSize_ s) (value s i).
  Proof. exact (safe_read s i). Qed.
  Lemma safe_get_array s i : sound s -> 0 <= i < count_ s -> safely (fun v => len v = itemSize_ s) (get_array s i).
  Proof.
    intros Hs Hi; unfold get_array; destruct (Z.eqb_spec (itemSize_ s) 1) as [E|E]; [|apply safe_read; assumption].
    destruct (sound_bounds s Hs) as (_ & _ & B & _).
    apply (safely_bind (fun _ => True)); [apply safely_rd; lia|]. intros x _; simpl; rewrite E; reflexivity.
  Qed.
  Lemma safe_get_double s i : 0 <= i -> safely (fun _ => True) (get_double s i).
  Proof.
    intros Hi; unfold get_double; destruct (Z.leb_spec (len (s_ s)) i); [exact I|apply safely_rd; lia].
  Qed.
  Lemma safe_scalar s i : sound s -> 0 <= i < count_ s -> safely (fun _ => True) (scalar s i).
  Proof.
    intros Hs Hi; unfold scalar; destruct (size s <? i); [exact I|]. apply safely_rd.
    destruct (sound_bounds s Hs) as (_ & _ & B & _ & _ & _ & _ & _ & _ & B'). lia.
  Qed.

  Lemma safe_of k (l : list T) : 1 <= k < 2147483648 -> len l < 4294967296 ->
    safely (fun s => sound s /\ itemSize_ s = k /\ s_ s = l /\ count_ s = len l / k) (serie_of k l 3).
  Proof.
    intros Hk Hl; pose proof (len_nonneg l). unfold serie_of. destruct (Z.eqb_spec k 0); [lia|]. simpl.
    rewrite u64_small by lia.
    assert (0 <= len l / k <= len l) by (split; [apply Z.div_pos; lia|apply Z.div_le_upper_bound; nia]).
    rewrite u32_small by lia. split; [|repeat split; reflexivity].
    right; simpl. pose proof (Z.div_mod (len l) k ltac:(lia)). pose proof (Z.mod_pos_bound (len l) k ltac:(lia)). nia.
  Qed.
  Lemma sound_n k n : 0 <= k < 2147483648 -> 0 <= n -> n * k < 4294967296 -> (k = 0 -> n = 0) -> forall d, sound (serie_n (T := T) k n d).
  Proof.
    intros Hk Hn Hnk H0 d; destruct (Z.eq_dec k 0) as [->|E].
    - rewrite (H0 eq_refl); left; repeat split; reflexivity.
    - right; simpl. assert (0 <= n * k) by nia. rewrite u32_small by lia. rewrite len_replicate by lia. lia.
  Qed.
  Lemma sound_default : sound (T := T) serie_default.
  Proof. left; repeat split. Qed.

  (** writing an item or a number *)
  Definition like s s' : Prop :=
    itemSize_ s' = itemSize_ s /\ count_ s' = count_ s /\ len (s_ s') = len (s_ s).
  Lemma like_sound s s' : like s s' -> sound s -> sound s'.
  Proof.
    intros (E1 & E2 & E3) [(A & B & C)|D].
    - left; rewrite E1, E2; repeat split; try assumption. apply len_0; rewrite E3, C; reflexivity.
    - right; rewrite E1, E2, E3; exact D.
  Qed.
  Lemma like_refl s : like s s. Proof. repeat split. Qed.
  Lemma like_trans s s' s'' : like s s' -> like s' s'' -> like s s''.
  Proof. intros (A & B & C) (D & E & F); repeat split; congruence. Qed.
  Lemma safe_write s i v : sound s -> 0 <= i -> safely (like s) (set_array s i v).
  Proof.
    intros Hs Hi; unfold set_array. destruct (Z.leb_spec (count_ s) i) as [|Hc]; [exact I|].
    destruct (sound_bounds s Hs) as (B1 & _).
    destruct (Z.eqb_spec (len v) (u64 (itemSize_ s))) as [E|]; [|exact I]. simpl.
    rewrite u64_small in E by lia.
    unfold write_item. apply (safely_bind (fun d => len d = len (s_ s))).
    - apply safely_foldO; [|reflexivity]. intros d j Hj Hd; apply in_iota in Hj.
      apply (safely_bind (fun _ => True)); [apply safely_rd; lia|]. intros x _.
      eapply safely_mono; [|apply safely_wr]; [intros r Hr; simpl in Hr; lia|].
      rewrite Hd; apply (sound_item s i Hs ltac:(lia) j Hj).
    - intros d Hd; simpl; repeat split; exact Hd.
  Qed.
  Lemma safe_setValue s i v : sound s -> 0 <= i -> safely (like s) (setValue s i v).
  Proof. exact (safe_write s i v). Qed.
  Lemma safe_set_double s i x : 0 <= i -> safely (like s) (set_double s i x).
  Proof.
    intros Hi; unfold set_double; destruct (Z.leb_spec (len (s_ s)) i); [exact I|].
    apply (safely_bind (fun d => len d = len (s_ s))); [apply safely_wr; lia|]. intros d Hd; repeat split; exact Hd.
  Qed.
  Lemma safe_setScalar s i x : 0 <= i -> safely (like s) (setScalar s i x).
  Proof. exact (safe_set_double s i x). Qed.

  Lemma safe_upd_each n f (r : list T) : 0 <= n <= len r ->
    (forall k x, 0 <= k < n -> safely (fun _ => True) (f k x)) -> safely (fun r' => len r' = len r) (upd_each n f r).
  Proof.
    intros Hn Hf; unfold upd_each; apply safely_foldO; [|reflexivity].
    intros a k Hk Ha; apply in_iota in Hk.
    apply (safely_bind (fun _ => True)); [apply safely_rd; lia|]. intros x _.
    apply (safely_bind (fun _ => True)); [apply Hf; exact Hk|]. intros y _.
    eapply safely_mono; [|apply safely_wr; lia]. intros b Hb; simpl in Hb; lia.
  Qed.

  (** map *)
  Lemma safe_map_num {St A} (get : Z -> outcome A) (cb : A -> Z -> M St T) n : 0 <= n < 4294967296 ->
    (forall i, 0 <= i < n -> safelyM (fun _ => True) (let! x := lift (get i) in cb x i)) ->
    safelyM (fun s => sound s /\ itemSize_ s = 1 /\ count_ s = n) (map_num get cb n).
  Proof.
    intros Hn Hc; unfold map_num, each.
    eapply safelyM_bind; [apply (safelyM_mapM (fun _ => True)); intros i Hi; apply in_iota in Hi; apply Hc; exact Hi|].
    intros l [_ El]; rewrite len_iota in El by lia. apply safelyM_lift.
    eapply safely_mono; [|apply safe_of; lia]. intros s (A1 & A2 & _ & A3); simpl in *.
    rewrite A3, El, Z.div_1_r; auto.
  Qed.
  Lemma safe_map_arr {St A} (get : Z -> outcome A) (cb : A -> Z -> M St (list T)) n k : 0 <= n < 4294967296 ->
    (forall i, 0 <= i < n -> safelyM (fun v => 1 <= len v <= k) (let! x := lift (get i) in cb x i)) ->
    1 <= n -> k < 2147483648 -> n * k < 4294967296 -> safelyM (fun s => sound s /\ 1 <= itemSize_ s <= k /\ count_ s = n) (map_arr get cb n).
  Proof.
    intros Hn Hc Hn1 Hk2 Hnk; unfold map_arr. destruct (Z.eqb_spec n 0); [lia|].
    assert (G : forall m, safelyM (fun s => sound s /\ 1 <= itemSize_ s <= k /\ count_ s = n)
       (mbind (let! x0 := lift (get 0) in cb x0 0) (fun first_result => m first_result)) ->
       safelyM (fun s : Serie T => sound s /\ 1 <= itemSize_ s <= k /\ count_ s = n)
         (let! x0 := lift (get 0) in let! first_result := cb x0 0 in m first_result)).
    { intros m Hm st; specialize (Hm st). rewrite mbind_assoc in Hm. exact Hm. }
    apply G; clear G. eapply safelyM_bind; [apply Hc; lia|]. intros first Hf; simpl in Hf.
    assert (Ei : len (iota_from 1 n) = n - 1).
    { unfold iota_from; rewrite len_map; unfold len; rewrite seq_length; lia. }
    assert (G : safelyM (fun fl => len fl = n * len first) (foldM (fun flattened i =>
          let! x := lift (get i) in
          let! result := cb x i in
          if negb (len result =? len first) then throwM RuntimeError
          else ret (flattened ++ result)) (iota_from 1 n) first : M St (list T))).
    { assert (Gl : forall l fl, (forall i, In i l -> 0 <= i < n) ->
        safelyM (fun r => len r = len fl + len l * len first) (foldM (fun flattened i =>
          let! x := lift (get i) in
          let! result := cb x i in
          if negb (len result =? len first) then throwM RuntimeError
          else ret (flattened ++ result)) l fl : M St (list T))).
      { induction l as [|i l IH]; intros fl Hl; [intros st; simpl; change (len (@nil Z)) with 0; lia|].
        simpl. apply (safelyM_bind (fun r => len r = len fl + len first)).
        - intros st. pose proof (Hc i (Hl i (or_introl eq_refl)) st) as Hi.
          unfold mbind in *. destruct (lift (get i) st) as [[x|e|] st1]; [|exact Hi|exact Hi].
          destruct (cb x i st1) as [[r|e|] st2]; [|exact Hi|exact Hi].
          destruct (Z.eqb_spec (len r) (len first)) as [E|E]; simpl; [rewrite len_app; lia|exact I].
        - intros a Ha; eapply safelyM_mono; [|apply IH; intros j Hj; apply Hl; right; exact Hj].
          intros r Hr; simpl in Hr. rewrite len_cons; lia. }
      eapply safelyM_mono; [|apply Gl].
      - intros r Hr; simpl in Hr. rewrite Ei in Hr. lia.
      - intros i Hi. unfold iota_from in Hi. apply in_map_iff in Hi as (m & <- & Hm). apply in_seq in Hm. lia. }
    eapply safelyM_bind; [exact G|]. intros fl Hfl; simpl in Hfl. apply safelyM_lift.
    rewrite s32_small by lia. assert (n * len first <= n * k) by nia. assert (n <= n * len first) by nia.
    eapply safely_mono; [|apply safe_of; lia].
    intros s (A1 & A2 & A3 & A4); simpl in *. rewrite A4, Hfl, A2, Z.div_mul by lia. auto.
  Qed.
  (** a callback giving arrays that are not empty and not longer than the items *)
  Lemma safe_map_vv {St} (cb : list T -> Z -> M St (list T)) s : sound s ->
    (forall v i, len v = itemSize_ s -> 0 <= i < count_ s -> 1 <= itemSize_ s -> safelyM (fun r => 1 <= len r <= itemSize_ s) (cb v i)) ->
    safelyM (fun r => sound r /\ itemSize_ r <= itemSize_ s /\ count_ r = count_ s) (map_vv cb s).
  Proof.
    intros Hs Hc; destruct (sound_bounds s Hs) as (B1 & B2 & B3 & B4 & B5 & _). unfold map_vv.
    change (count s) with (count_ s).
    destruct (Z.eq_dec (count_ s) 0) as [E|E].
    - unfold map_arr; rewrite E; simpl. apply safelyM_ret; split; [exact sound_default|]; simpl; lia.
    - eapply safelyM_mono; [|apply (safe_map_arr _ _ _ (itemSize_ s)); try lia].
      + intros r (A & B & C); split; [exact A|lia].
      + intros i Hi. apply (safelyM_bind (fun v => len v = itemSize_ s)); [apply safelyM_lift, safe_get_array; assumption|].
        intros v Hv; apply Hc; try assumption. assert (itemSize_ s <> 0) by (intros E0; apply B5 in E0; lia). lia.
  Qed.
End Sound.
