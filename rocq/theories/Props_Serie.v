(** * C01 - C08: the class Serie. *)
From Verif Require Import Base Num Serie Spec BaseFacts SerieFacts History F64.

Ltac Zify.zify_post_hook ::= Z.div_mod_to_equations.

(** the double literals of the examples are not unfolded *)
Opaque f64_of_Z.

(** ** C01 *)
Theorem C01_construction :
  forall (T : Type) (k : Z) (rows : list (list T)) (leftover : list T) (dim : Z),
  1 <= k < 2 ^ 31 -> rows_of_size k rows -> k * len rows < 2 ^ 32 -> len leftover < k ->
  exists s, serie_of k (concat rows ++ leftover) dim = Ok s /\
    itemSize s = k /\ count s = len rows /\ size s = k * len rows /\ dimension s = dim /\
    isValid s = true /\
    (forall i, 0 <= i < len rows ->
       value s i = Ok (nth (Z.to_nat i) rows []) /\
       get_array s i = Ok (nth (Z.to_nat i) rows [])) /\
    (k = 1 -> forall i, 0 <= i < len rows ->
       exists x, nth (Z.to_nat i) rows [] = [x] /\ get_double s i = Ok x /\ scalar s i = Ok x).
Proof.
  intros T k rows leftover dim Hk Hr Hm Hl.
  destruct (serie_of_repr k rows leftover dim) as (s & E & Hs & Hd); auto.
  exists s; split; [exact E|]; split; [apply (repr_itemSize s k rows Hs)|].
  split; [apply (repr_count s k rows Hs)|]; split; [apply (repr_size s k rows Hs)|].
  split; [exact Hd|].
  split; [unfold isValid; rewrite (repr_itemSize_ s k rows Hs); destruct (Z.ltb_spec 0 k); [reflexivity|lia]|].
  split.
  - intros i Hi; rewrite (value_repr s k rows), (get_array_repr s k rows), (rd_nth rows i []) by auto; auto.
  - intros -> i Hi.
    pose proof (rows_size1_col rows Hr) as Hc.
    rewrite Hc in Hs, Hi; rewrite len_col in Hi.
    destruct (rd_in_range (concat rows) i Hi) as (x & Ex & En).
    exists x; split.
    + rewrite Hc; unfold col; apply nth_error_nth; rewrite nth_error_map, En; reflexivity.
    + rewrite (get_double_repr s (concat rows)), (scalar_repr s (concat rows)), Ex by auto; auto.
Qed.
Print Assumptions C01_construction.

Example C01_witness :
  rows_of_size 3 [[#1; #2; #3]; [#4; #5; #6]] /\ 3 * len [[#1; #2; #3]; [#4; #5; #6]] < 2 ^ 32 /\
  exists s, serie_of 3 [#1; #2; #3; #4; #5; #6; #7; #8] 3 = Ok s /\ count s = 2 /\
            value s 1 = Ok [#4; #5; #6].
Proof. split; [repeat constructor|]; split; [reflexivity|]. eexists; split; [reflexivity|]; split; reflexivity. Qed.

(** ** C02 *)
Section Lens.
  Context {T : Type}.

  (** what a client can see of a Serie besides its raw storage *)
  Definition same_shape (s s' : Serie T) : Prop :=
    itemSize s' = itemSize s /\ count s' = count s /\ dimension s' = dimension s.

  (** [set] is one of the two item writers *)
  Definition item_writer (set : Serie T -> Z -> list T -> outcome (Serie T)) : Prop :=
    set = set_array \/ set = setValue.
  Definition item_reader (get : Serie T -> Z -> outcome (list T)) : Prop :=
    get = get_array \/ get = value.
  Definition number_writer (set : Serie T -> Z -> T -> outcome (Serie T)) : Prop :=
    set = set_double \/ set = setScalar.

  Lemma item_writer_eq set : item_writer set -> set = set_array.
  Proof. intros [->| ->]; reflexivity. Qed.
  Lemma number_writer_eq set : number_writer set -> set = set_double.
  Proof. intros [->| ->]; reflexivity. Qed.
  Lemma item_reader_repr get s k rows i :
    item_reader get -> repr s k rows -> 0 <= i < len rows -> get s i = rd rows i.
  Proof. intros [->| ->] Hs Hi; [eapply get_array_repr|eapply value_repr]; eassumption. Qed.
End Lens.

Theorem C02_set_get :
  forall (T : Type) set get (s : Serie T) k rows i v,
  item_writer set -> item_reader get ->
  repr s k rows -> 0 <= i < len rows -> len v = k ->
  exists s', set s i v = Ok s' /\ same_shape s s' /\ get s' i = Ok v /\
    (forall j, 0 <= j < len rows -> j <> i -> get s' j = get s j) /\
    repr s' k (upd_nat rows (Z.to_nat i) v).
Proof.
  intros T set get s k rows i v Hset Hget Hs Hi Hv.
  rewrite (item_writer_eq set Hset).
  pose proof Hs as (_ & _ & (t & Hd) & Hr & _).
  eexists; split; [apply (set_array_repr s k rows i v t); auto|].
  assert (Hs' : repr (with_data s (concat (upd_nat rows (Z.to_nat i) v) ++ t)) k
                  (upd_nat rows (Z.to_nat i) v)).
  { apply repr_with_data with (rows := rows); auto; [apply len_upd|apply rows_upd; auto]. }
  split; [repeat split|]; split; [|split; [|exact Hs']].
  - rewrite (item_reader_repr get _ k _ i Hget Hs') by (rewrite len_upd; lia).
    apply rd_ok; split; [lia|]; apply nth_error_upd_same; unfold len in Hi; lia.
  - intros j Hj Hne.
    rewrite (item_reader_repr get _ k _ j Hget Hs') by (rewrite len_upd; lia).
    rewrite (item_reader_repr get s k rows j Hget Hs) by lia.
    rewrite !rd_nth_error; destruct (Z.leb_spec 0 j); [|reflexivity].
    rewrite nth_error_upd_other by lia; reflexivity.
Qed.
Print Assumptions C02_set_get.

Theorem C02_get_set :
  forall (T : Type) set get (s : Serie T) k rows i v,
  item_writer set -> item_reader get ->
  repr s k rows -> 0 <= i < len rows -> get s i = Ok v -> set s i v = Ok s.
Proof.
  intros T set get s k rows i v Hset Hget Hs Hi Hg.
  rewrite (item_writer_eq set Hset).
  rewrite (item_reader_repr get s k rows i Hget Hs Hi) in Hg.
  apply rd_ok in Hg; destruct Hg as [_ Hg].
  pose proof Hs as (_ & _ & (t & Hd) & Hr & _).
  rewrite (set_array_repr s k rows i v t) by (auto; eapply rows_nth; eauto).
  rewrite upd_nat_same by exact Hg; f_equal; rewrite <- Hd; destruct s; reflexivity.
Qed.
Print Assumptions C02_get_set.

Theorem C02_set_set :
  forall (T : Type) set (s : Serie T) k rows i v w s1,
  item_writer set ->
  repr s k rows -> 0 <= i < len rows -> len v = k -> len w = k ->
  set s i v = Ok s1 -> set s1 i w = set s i w.
Proof.
  intros T set s k rows i v w s1 Hset Hs Hi Hv Hw.
  rewrite (item_writer_eq set Hset).
  pose proof Hs as (_ & _ & (t & Hd) & Hr & _).
  rewrite (set_array_repr s k rows i v t) by auto; intros E; injection E as <-.
  rewrite (set_array_repr _ k (upd_nat rows (Z.to_nat i) v) i w t); auto.
  - rewrite (set_array_repr s k rows i w t), upd_nat_twice by auto; reflexivity.
  - apply repr_with_data with (rows := rows); auto; [apply len_upd|apply rows_upd; auto].
  - rewrite len_upd; lia.
Qed.
Print Assumptions C02_set_set.

Theorem C02_number_laws :
  forall (T : Type) set (s : Serie T) i x,
  number_writer set -> 0 <= i < len (asArray s) ->
  (exists s', set s i x = Ok s' /\ same_shape s s' /\ len (asArray s') = len (asArray s) /\
     get_double s' i = Ok x /\ (forall j, j <> i -> get_double s' j = get_double s j) /\
     (forall y, set s' i y = set s i y)) /\
  (forall y, get_double s i = Ok y -> set s i y = Ok s).
Proof.
  intros T set s i x Hset Hi; rewrite (number_writer_eq set Hset).
  unfold asArray in *.
  assert (W : forall (s : Serie T) y, 0 <= i < len (s_ s) ->
     set_double s i y = Ok (with_data s (upd_nat (s_ s) (Z.to_nat i) y))).
  { intros s0 y Hi0; unfold set_double; destruct (Z.leb_spec (len (s_ s0)) i); [lia|].
    rewrite wr_ok by lia; reflexivity. }
  split.
  - eexists; split; [apply W; exact Hi|].
    split; [repeat split|]; split; [simpl; apply len_upd|]; split; [|split].
    + unfold get_double; simpl; rewrite len_upd; destruct (Z.leb_spec (len (s_ s)) i); [lia|].
      apply rd_ok; split; [lia|]; apply nth_error_upd_same; unfold len in Hi; lia.
    + intros j Hj; unfold get_double; simpl; rewrite len_upd.
      destruct (Z.leb_spec (len (s_ s)) j); [reflexivity|].
      rewrite !rd_nth_error; destruct (Z.leb_spec 0 j); [|reflexivity].
      rewrite nth_error_upd_other by lia; reflexivity.
    + intros y; rewrite W by (simpl; rewrite len_upd; exact Hi).
      rewrite W by exact Hi; simpl; rewrite upd_nat_twice; reflexivity.
  - intros y Hy; rewrite W by exact Hi.
    unfold get_double in Hy; destruct (Z.leb_spec (len (s_ s)) i); [lia|].
    apply rd_ok in Hy; destruct Hy as [_ Hy]; rewrite upd_nat_same by exact Hy.
    destruct s; reflexivity.
Qed.
Print Assumptions C02_number_laws.

Example C02_witness :
  repr (mk 2 [[#1; #2]; [#3; #4]; [#5; #6]] 3) 2 [[#1; #2]; [#3; #4]; [#5; #6]] /\
  exists s', set_array (mk 2 [[#1; #2]; [#3; #4]; [#5; #6]] 3) 1 [#8; #9] = Ok s' /\
     asArray s' = [#1; #2; #8; #9; #5; #6].
Proof.
  split.
  - apply repr_mk; [repeat constructor|lia|reflexivity|reflexivity].
  - eexists; split; reflexivity.
Qed.

(** ** C03 *)
Theorem C03_item_writes_safe :
  forall (T : Type) set (s : Serie T) k rows i v,
  item_writer set -> repr s k rows -> 0 <= i < 2 ^ 32 ->
  (i < len rows /\ len v = k -> exists s', set s i v = Ok s' /\ len (asArray s') = len (asArray s)) /\
  (~ (i < len rows /\ len v = k) -> set s i v = Throw InvalidArgument).
Proof.
  intros T set s k rows i v Hset Hs Hi; rewrite (item_writer_eq set Hset).
  pose proof Hs as (Hk & Hc & (t & Hd) & Hr & Hb & Hn & Hm); split.
  - intros [H1 H2]; eexists; split; [apply (set_array_repr s k rows i v t); auto; lia|].
    unfold asArray; simpl; rewrite Hd, !len_app, !(len_concat k), len_upd; auto.
    apply rows_upd; auto.
  - intros Hne; unfold set_array; rewrite Hc, Hk.
    destruct (Z.leb_spec (len rows) i); [reflexivity|].
    rewrite u64_small by lia; destruct (Z.eqb_spec (len v) k); [exfalso; auto|reflexivity].
Qed.
Print Assumptions C03_item_writes_safe.

Theorem C03_number_writes_safe :
  forall (T : Type) set (s : Serie T) i x,
  number_writer set -> 0 <= i < 2 ^ 32 ->
  (i < len (asArray s) -> exists s', set s i x = Ok s' /\ len (asArray s') = len (asArray s)) /\
  (len (asArray s) <= i -> set s i x = Throw InvalidArgument).
Proof.
  intros T set s i x Hset Hi; rewrite (number_writer_eq set Hset); unfold asArray, set_double; split; intros Hl.
  - destruct (Z.leb_spec (len (s_ s)) i); [lia|]; rewrite wr_ok by lia.
    eexists; split; [reflexivity|]; simpl; apply len_upd.
  - destruct (Z.leb_spec (len (s_ s)) i); [reflexivity|lia].
Qed.
Print Assumptions C03_number_writes_safe.

Example C03_witness :
  set_array (mk 2 [[#1; #2]; [#3; #4]] 3) 2 [#8; #9] = Throw InvalidArgument /\
  set_array (mk 2 [[#1; #2]; [#3; #4]] 3) 1 [#8] = Throw InvalidArgument /\
  set_double (mk 2 [[#1; #2]; [#3; #4]] 3) 4 #1 = Throw InvalidArgument.
Proof. repeat split. Qed.

(** ** C04 *)
(** The full statement: every read with an out-of-range index throws [std::invalid_argument]. *)
Definition C04_statement : Prop :=
  forall (s : Serie F64) k rows i, repr s k rows -> 0 <= i < 2 ^ 32 ->
    (len rows <= i -> value s i = Throw InvalidArgument /\ get_array s i = Throw InvalidArgument) /\
    (k = 1 -> len rows <= i -> scalar s i = Throw InvalidArgument) /\
    (len (asArray s) <= i -> get_double s i = Throw InvalidArgument).

(** Reading one past the end is undefined for [value], [get<Array>] and [scalar]; a far index
    silently wraps to an existing item. *)
Theorem C04_read_refusal_refuted :
  (exists (s : Serie F64) rows, repr s 1 rows /\
     value s (len rows) = UB /\ get_array s (len rows) = UB /\ scalar s (len rows) = UB) /\
  (exists (s : Serie F64) rows i r, repr s 2 rows /\ len rows <= i < 2 ^ 32 /\
     value s i = Ok r /\ get_array s i = Ok r).
Proof.
  split.
  - exists (mk 1 [[#5]; [#6]] 3), [[#5]; [#6]]; split.
    + apply repr_mk; [repeat constructor|lia|reflexivity|reflexivity].
    + repeat split.
  - exists (mk 2 [[#5; #6]] 3), [[#5; #6]], 2147483648, [#5; #6]; split.
    + apply repr_mk; [repeat constructor|lia|reflexivity|reflexivity].
    + split; [split; [vm_compute; discriminate|reflexivity]|]; split; reflexivity.
Qed.
Print Assumptions C04_read_refusal_refuted.

Theorem C04_statement_false_refuted : ~ C04_statement.
Proof.
  intros C; destruct C04_read_refusal_refuted as [(s & rows & Hs & Hv & _) _].
  destruct (C s 1 rows (len rows) Hs) as [G _].
  - pose proof (len_nonneg rows); destruct Hs as (_ & _ & _ & _ & _ & Hn & _); lia.
  - destruct (G (Z.le_refl _)) as [G1 _]; rewrite G1 in Hv; discriminate.
Qed.
Print Assumptions C04_statement_false_refuted.

(** What holds: reads of existing items succeed, [get<double>] refuses every index past the storage, [scalar]
    refuses every index above [size()], and [value]/[get<Array>] never reports success outside the
    storage for a Serie whose index arithmetic does not wrap. *)
Theorem C04_read_refusal_partial :
  forall (T : Type) (s : Serie T) k rows i, repr s k rows -> 0 <= i < 2 ^ 32 ->
    (i < len rows -> value s i = Ok (nth (Z.to_nat i) rows []) /\
                     get_array s i = Ok (nth (Z.to_nat i) rows [])) /\
    (len (asArray s) <= i <-> get_double s i = Throw InvalidArgument) /\
    (size s < i -> scalar s i = Throw InvalidArgument) /\
    (1 < k -> i * k + k <= 2 ^ 32 -> len (asArray s) < (i + 1) * k -> value s i = UB /\ get_array s i = UB).
Proof.
  intros T s k rows i Hs Hi; split; [|split; [|split]].
  - intros Hlt; rewrite (value_repr s k rows), (get_array_repr s k rows), (rd_nth rows i []) by (auto; lia); auto.
  - unfold asArray, get_double; destruct (Z.leb_spec (len (s_ s)) i) as [Hle|Hlt]; split; intros E; auto; [lia|].
    destruct (rd_in_range (s_ s) i) as (x & E2 & _); [lia|]; rewrite E2 in E; discriminate.
  - intros Hlt; unfold scalar; destruct (Z.ltb_spec (size s) i); [reflexivity|lia].
  - intros Hk Hw Hlen.
    assert (V : value s i = UB).
    { pose proof (repr_itemSize_ s k rows Hs) as Ek.
      unfold value, read_item; rewrite Ek; destruct (Z.ltb_spec k 0); [lia|].
      assert (Hp : 0 <= i * k) by (apply Z.mul_nonneg_nonneg; lia).
      rewrite (mapO_ext _ (fun j => rd (s_ s) (i * k + j))).
      - assert (G : forall l, In (k - 1) l -> mapO (fun j => rd (s_ s) (i * k + j)) l = UB).
        { induction l as [|j l IH]; intros Hin; [destruct Hin|].
          simpl; destruct Hin as [->|Hin].
          - rewrite rd_out by (unfold asArray in Hlen; lia); reflexivity.
          - rewrite (IH Hin), rd_nth_error; destruct (0 <=? i * k + j); [|reflexivity].
            destruct (nth_error (s_ s) (Z.to_nat (i * k + j))); reflexivity. }
        apply G, in_iota; lia.
      - intros j Hj; apply in_iota in Hj.
        rewrite (u32_small (i * k)), u32_small by lia; reflexivity. }
    split; [exact V|]; unfold get_array.
    rewrite (repr_itemSize_ s k rows Hs); destruct (Z.eqb_spec k 1); [lia|exact V].
Qed.
Print Assumptions C04_read_refusal_partial.

(** ** C05 *)
(** every item can be read without leaving the storage *)
Definition items_inside {T} (s : Serie T) : Prop :=
  forall i, 0 <= i < count s -> value s i <> UB /\ get_array s i <> UB.

(** arguments have their C++ types *)
Definition typed {T} (h : heap T) (e : event T) : Prop :=
  match e with
  | ENew k n d => - 2 ^ 31 <= k < 2 ^ 31 /\ 0 <= n < 2 ^ 32
  | EFrom k vs d => - 2 ^ 31 <= k < 2 ^ 31
  | EReCount o c => 0 <= c < 2 ^ 32
  | ESet _ i _ | ESetValue _ i _ | ESetD _ i _ | ESetScalar _ i _ => 0 <= i < 2 ^ 32
  | _ => True
  end.
(** no requested count*itemSize reaches 2^32 *)
Definition request_fits {T} (h : heap T) (e : event T) : Prop :=
  typed h e /\
  match e with
  | ENew k n d => n * k < 2 ^ 32
  | EReCount o c => forall s, nth_error h o = Some s -> c * itemSize_ s < 2 ^ 32
  | _ => True
  end.

Section Invariant.
  Context {T : Type} `{NT : Num T}.

  Definition inv (s : Serie T) : Prop :=
    0 <= count_ s /\ (0 < itemSize_ s -> count_ s * itemSize_ s <= len (s_ s)).

  Lemma u32_le x : 0 <= x -> 0 <= u32 x <= x.
  Proof. intros Hx; unfold u32, two32; split; [apply Z.mod_pos_bound; lia|apply Z.mod_le; lia]. Qed.

  Lemma mapO_not_UB {A B} (f : A -> outcome B) l :
    (forall x, In x l -> exists y, f x = Ok y) -> mapO f l <> UB.
  Proof.
    intros Hf; assert (E : exists ys, mapO f l = Ok ys).
    { induction l as [|x l IH]; [exists []; reflexivity|].
      simpl; destruct (Hf x (or_introl eq_refl)) as (y & ->); simpl.
      destruct IH as (ys & ->); [intros z Hz; apply Hf; right; exact Hz|].
      eexists; reflexivity. }
    destruct E as (ys & ->); discriminate.
  Qed.

  Lemma inv_items_inside s : inv s -> items_inside s.
  Proof.
    intros [Hc Hi] i Hr; unfold count in Hr.
    assert (V : read_item s i <> UB).
    { unfold read_item; destruct (Z.ltb_spec (itemSize_ s) 0); [discriminate|].
      apply mapO_not_UB; intros j Hj; apply in_iota in Hj.
      assert (Hp : 0 < itemSize_ s) by lia; specialize (Hi Hp).
      assert (H1 : 0 <= i * itemSize_ s) by (apply Z.mul_nonneg_nonneg; lia).
      assert (H2 : i * itemSize_ s + itemSize_ s <= count_ s * itemSize_ s) by nia.
      pose proof (u32_le _ H1) as H3.
      assert (H4 : 0 <= u32 (i * itemSize_ s) + j) by lia.
      pose proof (u32_le _ H4) as H5.
      destruct (rd_in_range (s_ s) (u32 (u32 (i * itemSize_ s) + j))) as (x & E & _); [lia|].
      exists x; exact E. }
    split; [exact V|]; unfold get_array.
    destruct (Z.eqb_spec (itemSize_ s) 1) as [E|_]; [|exact V].
    rewrite E in Hi; destruct (rd_in_range (s_ s) i) as (x & -> & _); [lia|]; discriminate.
  Qed.

  Lemma inv_new k n d : 0 <= n -> n * k < 2 ^ 32 -> inv (serie_n k n d).
  Proof.
    intros Hn Hf; split; simpl; [exact Hn|]; intros Hk.
    rewrite u32_small by nia; rewrite len_replicate by nia; lia.
  Qed.
  Lemma inv_of k vs d s : - 2 ^ 31 <= k < 2 ^ 31 -> serie_of k vs d = Ok s -> inv s.
  Proof.
    unfold serie_of; intros Hk; destruct (Z.eqb_spec k 0); [discriminate|].
    intros E; injection E as <-; split; simpl; [apply u32_range|]; intros Hp.
    rewrite u64_small by lia; pose proof (len_nonneg vs).
    pose proof (u32_le (len vs / k)) as Hu.
    assert (Hq : 0 <= len vs / k) by (apply Z.div_pos; lia).
    specialize (Hu Hq); assert (k * (len vs / k) <= len vs) by (apply Z.mul_div_le; lia).
    nia.
  Qed.
  Lemma inv_with_data s d : inv s -> len d = len (s_ s) -> inv (with_data s d).
  Proof. intros [H1 H2] E; split; simpl; [exact H1|rewrite E; exact H2]. Qed.
  Lemma wr_len {A} (l : list A) i x l' : wr l i x = Ok l' -> len l' = len l.
  Proof.
    unfold wr; destruct ((0 <=? i) && (i <? len l)); [|discriminate].
    intros E; injection E as <-; apply len_upd.
  Qed.
  Lemma foldO_len {A B} (f : list A -> B -> outcome (list A)) l d d' :
    (forall d x d', f d x = Ok d' -> len d' = len d) -> foldO f l d = Ok d' -> len d' = len d.
  Proof.
    intros Hf; revert d; induction l as [|x l IH]; intros d; simpl.
    - intros E; injection E as <-; reflexivity.
    - destruct (f d x) as [d1| |] eqn:E1; simpl; try discriminate.
      intros E; rewrite (IH d1 E); eapply Hf; eassumption.
  Qed.
  Lemma inv_set_array s i v s' : inv s -> set_array s i v = Ok s' -> inv s'.
  Proof.
    intros Hs; unfold set_array; destruct (count_ s <=? i); [discriminate|].
    destruct (negb (len v =? u64 (itemSize_ s))); [discriminate|].
    unfold write_item; destruct (foldO _ _ _) as [d| |] eqn:E; simpl; try discriminate.
    intros E2; injection E2 as <-; apply inv_with_data; [exact Hs|].
    eapply foldO_len; [|exact E]; intros d0 j d1; cbv beta; destruct (rd v j); simpl; try discriminate.
    apply wr_len.
  Qed.
  Lemma inv_set_double s i x s' : inv s -> set_double s i x = Ok s' -> inv s'.
  Proof.
    intros Hs; unfold set_double; destruct (len (s_ s) <=? i); [discriminate|].
    destruct (wr (s_ s) i x) as [d| |] eqn:E; simpl; try discriminate.
    intros E2; injection E2 as <-; apply inv_with_data; [exact Hs|]; eapply wr_len; exact E.
  Qed.

  Lemma Forall_upd {A} (P : A -> Prop) l n x : Forall P l -> P x -> Forall P (upd_nat l n x).
  Proof.
    intros Hl Hx; revert n; induction Hl as [|y l Hy Hl IH]; intros [|n]; simpl; constructor; auto.
  Qed.

  (** stored item sizes stay in the range of [int] *)
  Definition inv' (s : Serie T) : Prop := inv s /\ - 2 ^ 31 <= itemSize_ s < 2 ^ 31.

  Lemma step_inv h e h' :
    Forall inv' h -> request_fits h e -> step h e = Some (Ok h') -> Forall inv' h'.
  Proof.
    intros Hh [Ht Hf]; destruct e as [k n d| |k vs d|o|o|o o'|o c|o i v|o i v|o i x|o i x]; simpl in *.
    - intros E; injection E as <-; apply Forall_app; split; [exact Hh|]; constructor; [|constructor].
      split; [apply inv_new; lia|simpl; lia].
    - intros E; injection E as <-; apply Forall_app; split; [exact Hh|]; constructor; [|constructor].
      split; [apply inv_new; lia|simpl; lia].
    - destruct (serie_of k vs d) as [s| |] eqn:Es; simpl; try discriminate.
      intros E; injection E as <-; apply Forall_app; split; [exact Hh|]; constructor; [|constructor].
      split; [eapply inv_of; eassumption|].
      unfold serie_of in Es; destruct (k =? 0); [discriminate|]; injection Es as <-; simpl; lia.
    - unfold on; destruct (nth_error h o) as [s|] eqn:Eo; [|discriminate].
      intros E; injection E as <-; apply Forall_app; split; [exact Hh|]; constructor; [|constructor].
      assert (Hs : inv' s) by (eapply Forall_forall; [exact Hh|eapply nth_error_In; exact Eo]).
      destruct s; exact Hs.
    - unfold on; destruct (nth_error h o) as [s|] eqn:Eo; [|discriminate].
      assert (Hs : inv' s) by (eapply Forall_forall; [exact Hh|eapply nth_error_In; exact Eo]).
      destruct (clone s) as [c| |] eqn:Ec; simpl; try discriminate.
      intros E; injection E as <-; apply Forall_app; split; [exact Hh|]; constructor; [|constructor].
      destruct Hs as [_ Hs]; split; [eapply inv_of; [exact Hs|exact Ec]|].
      unfold clone, serie_of in Ec; destruct (itemSize_ s =? 0); [discriminate|].
      injection Ec as <-; exact Hs.
    - unfold on; destruct (nth_error h o') as [s|] eqn:Eo; [|discriminate].
      assert (Hs : inv' s) by (eapply Forall_forall; [exact Hh|eapply nth_error_In; exact Eo]).
      destruct (nth_error h o) as [t|]; [|discriminate].
      intros E; injection E as <-; apply Forall_upd; [exact Hh|]; exact Hs.
    - unfold on; destruct (nth_error h o) as [s|] eqn:Eo; [|discriminate].
      assert (Hs : inv' s) by (eapply Forall_forall; [exact Hh|eapply nth_error_In; exact Eo]).
      intros E; injection E as <-; apply Forall_upd; [exact Hh|].
      specialize (Hf s eq_refl).
      split; [|exact (proj2 Hs)].
      apply (inv_new (itemSize_ s) c (dimension_ s)); lia.
    - unfold on; destruct (nth_error h o) as [s|] eqn:Eo; [|discriminate].
      assert (Hs : inv' s) by (eapply Forall_forall; [exact Hh|eapply nth_error_In; exact Eo]).
      destruct (set_array s i v) as [c| |] eqn:Ec; simpl; try discriminate.
      intros E; injection E as <-; apply Forall_upd; [exact Hh|].
      split; [eapply inv_set_array; [exact (proj1 Hs)|exact Ec]|].
      unfold set_array in Ec; destruct (count_ s <=? i); [discriminate|].
      destruct (negb _); [discriminate|]; unfold write_item in Ec.
      destruct (foldO _ _ _); simpl in Ec; try discriminate; injection Ec as <-; exact (proj2 Hs).
    - unfold on; destruct (nth_error h o) as [s|] eqn:Eo; [|discriminate].
      assert (Hs : inv' s) by (eapply Forall_forall; [exact Hh|eapply nth_error_In; exact Eo]).
      destruct (setValue s i v) as [c| |] eqn:Ec; simpl; try discriminate.
      intros E; injection E as <-; apply Forall_upd; [exact Hh|].
      split; [eapply inv_set_array; [exact (proj1 Hs)|exact Ec]|].
      unfold setValue in Ec; destruct (count_ s <=? i); [discriminate|].
      destruct (negb _); [discriminate|]; unfold write_item in Ec.
      destruct (foldO _ _ _); simpl in Ec; try discriminate; injection Ec as <-; exact (proj2 Hs).
    - unfold on; destruct (nth_error h o) as [s|] eqn:Eo; [|discriminate].
      assert (Hs : inv' s) by (eapply Forall_forall; [exact Hh|eapply nth_error_In; exact Eo]).
      destruct (set_double s i x) as [c| |] eqn:Ec; simpl; try discriminate.
      intros E; injection E as <-; apply Forall_upd; [exact Hh|].
      split; [eapply inv_set_double; [exact (proj1 Hs)|exact Ec]|].
      unfold set_double in Ec; destruct (len (s_ s) <=? i); [discriminate|].
      destruct (wr _ _ _); simpl in Ec; try discriminate; injection Ec as <-; exact (proj2 Hs).
    - unfold on; destruct (nth_error h o) as [s|] eqn:Eo; [|discriminate].
      assert (Hs : inv' s) by (eapply Forall_forall; [exact Hh|eapply nth_error_In; exact Eo]).
      destruct (setScalar s i x) as [c| |] eqn:Ec; simpl; try discriminate.
      intros E; injection E as <-; apply Forall_upd; [exact Hh|].
      split; [eapply inv_set_double; [exact (proj1 Hs)|exact Ec]|].
      unfold setScalar in Ec; destruct (len (s_ s) <=? i); [discriminate|].
      destruct (wr _ _ _); simpl in Ec; try discriminate; injection Ec as <-; exact (proj2 Hs).
  Qed.

  Lemma reaches_inv h es h' : reaches request_fits h es h' -> Forall inv' h -> Forall inv' h'.
  Proof.
    induction 1 as [h|h e h1 es h2 HP Hst Hr IH|h e x es h2 HP Hst Hr IH]; auto.
    intros Hh; apply IH; eapply step_inv; eassumption.
  Qed.
End Invariant.

Theorem C05_history_storage :
  forall (T : Type) (NT : Num T) (es : list (event T)) (h : heap T),
  reaches request_fits [] es h -> Forall items_inside h.
Proof.
  intros T NT es h Hr.
  pose proof (reaches_inv _ _ _ Hr (Forall_nil _)) as Hi.
  eapply Forall_impl; [|exact Hi]; intros s [Hs _]; apply inv_items_inside; exact Hs.
Qed.
Print Assumptions C05_history_storage.

(** a history going through every kind of call, with refused writes *)
Example C05_witness :
  let NT := f64_num libm0 in
  exists h, reaches request_fits []
    [ENew 2 3 3; EFrom 3 [#1; #2; #3; #4] 2; EDefault; ECopy 0; EClone 1; EAssign 2 1; EReCount 0 5;
     ESet 3 2 [#7; #8]; ESet 3 3 [#7; #8]; ESetValue 1 0 [#9; #9; #9]; ESetD 0 9 #1; ESetScalar 0 10 #1] h
    /\ map count h = [5; 1; 1; 3; 1] /\ map itemSize h = [2; 3; 3; 2; 3].
Proof.
  intros NT; eexists; split.
  - repeat first
      [ apply r_nil
      | eapply r_ok; [split; [simpl; repeat split; lia|simpl; try lia; auto]| reflexivity |]
      | eapply r_throw; [split; [simpl; repeat split; lia|simpl; try lia; auto]| reflexivity |] ].
    intros s E; injection E as <-; simpl; lia.
  - split; reflexivity.
Qed.

(** without the proviso: [Serie(2, 2^31)] has 2^31 items and no storage *)
Theorem C05_unrestricted_refuted :
  exists (es : list (event F64)) (h : heap F64),
  @reaches F64 (f64_num libm0) typed [] es h /\ ~ Forall items_inside h.
Proof.
  exists [ENew 2 2147483648 3], [@serie_n F64 (f64_num libm0) 2 2147483648 3]; split.
  - eapply r_ok; [simpl; lia|reflexivity|apply r_nil].
  - intros Hf; inversion Hf as [|s l Hs Hl]; subst.
    destruct (Hs 0) as [Hv _]; [unfold count; simpl; lia|]; apply Hv; reflexivity.
Qed.
Print Assumptions C05_unrestricted_refuted.

(** ** C06 *)
Theorem C06_copies :
  forall (T : Type) (s t : Serie T) k rows, repr s k rows ->
  serie_copy s = s /\
  repr (serie_assign t s) k rows /\
  (1 <= k -> len (asArray s) < k * len rows + k ->
     exists c, clone s = Ok c /\ repr c k rows /\ asArray c = asArray s).
Proof.
  intros T s t k rows Hs; split; [destruct s; reflexivity|]; split; [exact Hs|].
  intros Hk Hl; pose proof Hs as (Ek & Ec & (lo & Hd) & Hr & Hb & Hn & Hm).
  assert (Hlo : len lo < k).
  { unfold asArray in Hl; rewrite Hd, len_app, (len_concat k) in Hl by exact Hr; lia. }
  destruct (serie_of_repr k rows lo 3) as (c & E & Hc & _); auto; [lia|].
  exists c; unfold clone; rewrite Ek, Hd; split; [exact E|]; split; [exact Hc|].
  unfold serie_of in E; destruct (k =? 0); [discriminate|]; injection E as <-.
  unfold asArray; rewrite Hd; reflexivity.
Qed.
Print Assumptions C06_copies.

(** in every history, the count of a valid Serie is the number of its items *)
Section Exact.
  Context {T : Type} `{NT : Num T}.
  Definition exact (s : Serie T) : Prop :=
    - 2 ^ 31 <= itemSize_ s < 2 ^ 31 /\ (0 < itemSize_ s -> count_ s = u32 (len (s_ s) / itemSize_ s)).

  Lemma exact_new k n d : - 2 ^ 31 <= k < 2 ^ 31 -> 0 <= n < 2 ^ 32 -> n * k < 2 ^ 32 -> exact (serie_n k n d).
  Proof.
    intros Hk Hn Hf; split; simpl; [exact Hk|]; intros Hp.
    assert (0 <= n * k) by (apply Z.mul_nonneg_nonneg; lia).
    rewrite (u32_small (n * k)) by lia; rewrite len_replicate by lia; rewrite Z.div_mul by lia.
    rewrite u32_small; lia.
  Qed.
  Lemma exact_of k vs d s : - 2 ^ 31 <= k < 2 ^ 31 -> serie_of k vs d = Ok s -> exact s.
  Proof.
    unfold serie_of; intros Hk; destruct (Z.eqb_spec k 0); [discriminate|].
    intros E; injection E as <-; split; simpl; [exact Hk|]; intros Hp; rewrite (u64_small k) by lia; reflexivity.
  Qed.
  Lemma exact_data s d : exact s -> len d = len (s_ s) -> exact (with_data s d).
  Proof. intros [H1 H2] E; split; simpl; [exact H1|rewrite E; exact H2]. Qed.
  Lemma exact_write s i v s' : exact s -> write_item s i v = Ok s' -> exact s'.
  Proof.
    intros Hs; unfold write_item; destruct (foldO _ _ _) as [d| |] eqn:E; simpl; try discriminate.
    intros E2; injection E2 as <-; apply exact_data; [exact Hs|].
    eapply foldO_len; [|exact E]; intros d0 j d1; cbv beta; destruct (rd v j); simpl; try discriminate.
    apply wr_len.
  Qed.
  Lemma exact_set s i v s' : exact s -> setValue s i v = Ok s' -> exact s'.
  Proof.
    intros Hs; unfold setValue; destruct (count_ s <=? i); [discriminate|].
    destruct (negb (len v =? u64 (itemSize_ s))); [discriminate|]; apply exact_write; exact Hs.
  Qed.
  Lemma exact_scalar s i x s' : exact s -> setScalar s i x = Ok s' -> exact s'.
  Proof.
    intros Hs; unfold setScalar; destruct (len (s_ s) <=? i); [discriminate|].
    destruct (wr (s_ s) i x) as [d| |] eqn:E; simpl; try discriminate.
    intros E2; injection E2 as <-; apply exact_data; [exact Hs|]; eapply wr_len; exact E.
  Qed.

  Lemma step_exact h e h' : Forall exact h -> request_fits h e -> step h e = Some (Ok h') -> Forall exact h'.
  Proof.
    intros Hh [Ht Hf].
    assert (G : forall o s, nth_error h o = Some s -> exact s)
      by (intros o s E; eapply Forall_forall; [exact Hh|eapply nth_error_In; exact E]).
    assert (P : forall r, (forall s, r = Ok s -> exact s) -> Some (push h r) = Some (Ok h') -> Forall exact h').
    { intros [s| |] Hr; simpl; try discriminate; intros E; injection E as <-.
      apply Forall_app; split; [exact Hh|]; constructor; [apply Hr; reflexivity|constructor]. }
    assert (Q : forall o r, (forall s, r = Ok s -> exact s) -> Some (put h o r) = Some (Ok h') -> Forall exact h').
    { intros o [s| |] Hr; simpl; try discriminate; intros E; injection E as <-; apply Forall_upd; [exact Hh|apply Hr; reflexivity]. }
    destruct e as [k n d| |k vs d|o|o|o o'|o c|o i v|o i v|o i x|o i x]; cbn [step typed] in *;
      try (unfold History.on; destruct (nth_error h o) as [s|] eqn:Eo; [|discriminate]).
    - apply P; intros s Es; injection Es as <-; apply exact_new; lia.
    - apply P; intros s Es; injection Es as <-; apply exact_new; lia.
    - apply P; intros s Es; eapply exact_of; eassumption.
    - apply P; intros s' Es; injection Es as <-; destruct s; exact (G _ _ Eo).
    - apply P; intros s' Es; eapply exact_of; [exact (proj1 (G _ _ Eo))|exact Es].
    - unfold History.on; destruct (nth_error h o') as [s|] eqn:Eo; [|discriminate].
      destruct (nth_error h o) as [t|]; [|discriminate].
      apply Q; intros s' Es; injection Es as <-; exact (G _ _ Eo).
    - apply Q; intros s' Es; injection Es as <-.
      apply (exact_new (itemSize_ s) c (dimension_ s)); [exact (proj1 (G _ _ Eo))|lia|exact (Hf s eq_refl)].
    - apply Q; intros s' Es; eapply exact_set; [exact (G _ _ Eo)|exact Es].
    - apply Q; intros s' Es; eapply exact_set; [exact (G _ _ Eo)|exact Es].
    - apply Q; intros s' Es; eapply exact_scalar; [exact (G _ _ Eo)|exact Es].
    - apply Q; intros s' Es; eapply exact_scalar; [exact (G _ _ Eo)|exact Es].
  Qed.
  Lemma reaches_exact h es h' : reaches request_fits h es h' -> Forall exact h -> Forall exact h'.
  Proof.
    induction 1 as [h|h e h1 es h2 HP Hst Hr IH|h e x es h2 HP Hst Hr IH]; auto.
    intros Hh; apply IH; eapply step_exact; eassumption.
  Qed.
End Exact.

(** so every valid Serie a program can get hold of is cloned with all its items *)
Theorem C06_clone_of_reached :
  forall (T : Type) (NT : Num T) (es : list (event T)) (h : heap T) o s,
  reaches request_fits [] es h -> nth_error h o = Some s -> isValid s = true ->
  exists c, clone s = Ok c /\ asArray c = asArray s /\ count c = count s /\ itemSize c = itemSize s /\
    forall i, value c i = value s i /\ get_array c i = get_array s i /\ get_double c i = get_double s i.
Proof.
  intros T NT es h o s Hr Ho Hv.
  assert (E : exact s) by (eapply Forall_forall; [exact (reaches_exact _ _ _ Hr (Forall_nil _))|eapply nth_error_In; exact Ho]).
  destruct E as [Hk Hc]; unfold isValid in Hv; apply Z.ltb_lt in Hv; specialize (Hc Hv).
  exists {| s_ := s_ s; count_ := count_ s; dimension_ := 3; itemSize_ := itemSize_ s |}; split.
  - unfold clone, serie_of; destruct (Z.eqb_spec (itemSize_ s) 0); [lia|]; rewrite Hc, (u64_small (itemSize_ s)) by lia; reflexivity.
  - repeat split; reflexivity.
Qed.
Print Assumptions C06_clone_of_reached.

Example C06_clone_of_reached_ex :
  let NT := f64_num libm0 in
  exists h s, reaches request_fits [] [EFrom 3 [#1; #2; #3; #4] 2; ESetValue 0 0 [#7; #8; #9]] h /\
    nth_error h 0 = Some s /\ isValid s = true /\ asArray s = [#7; #8; #9; #4] /\ count s = 1.
Proof.
  intros NT; eexists; eexists; split.
  - repeat first
      [ apply r_nil
      | eapply r_ok; [split; [simpl; repeat split; lia|simpl; try lia; auto]| reflexivity |] ].
  - repeat split; reflexivity.
Qed.

(** the object a call writes to *)
Definition written {T} (e : event T) : option nat :=
  match e with
  | EAssign o _ | EReCount o _ | ESet o _ _ | ESetValue o _ _ | ESetD o _ _ | ESetScalar o _ _ => Some o
  | _ => None
  end.

Lemma step_frame {T} {NT : Num T} (h : heap T) e h' o :
  step h e = Some (Ok h') -> written e <> Some o -> (o < length h)%nat ->
  nth_error h' o = nth_error h o /\ (length h <= length h')%nat.
Proof.
  assert (P : forall s h', push h s = Ok h' -> (o < length h)%nat ->
    nth_error h' o = nth_error h o /\ (length h <= length h')%nat).
  { intros s h1; unfold push; destruct s; simpl; try discriminate; intros E Ho; injection E as <-.
    rewrite nth_error_app1 by exact Ho; rewrite app_length; simpl; split; [reflexivity|lia]. }
  assert (W : forall n s h', put h n s = Ok h' -> n <> o ->
    nth_error h' o = nth_error h o /\ (length h <= length h')%nat).
  { intros n s h1; unfold put; destruct s; simpl; try discriminate; intros E Ho; injection E as <-.
    rewrite nth_error_upd_other, upd_nat_length by exact Ho; auto. }
  assert (O : forall n f, on h n f = Some (Ok h') -> exists s, nth_error h n = Some s /\ f s = Ok h').
  { intros n f; unfold on; destruct (nth_error h n) as [s|]; [|discriminate].
    intros E; injection E as E; eauto. }
  destruct e as [k n d| |k vs d|n|n|n m|n c|n i v|n i v|n i x|n i x]; cbn [step written]; intros E Hw Ho.
  - assert (E' := f_equal (fun z => match z with Some q => q | None => UB end) E); cbv beta iota in E'.
    eapply P; [exact E'|exact Ho].
  - assert (E' := f_equal (fun z => match z with Some q => q | None => UB end) E); cbv beta iota in E'.
    eapply P; [exact E'|exact Ho].
  - assert (E' := f_equal (fun z => match z with Some q => q | None => UB end) E); cbv beta iota in E'.
    eapply P; [exact E'|exact Ho].
  - destruct (O _ _ E) as (s & _ & E'); eapply P; [exact E'|exact Ho].
  - destruct (O _ _ E) as (s & _ & E'); eapply P; [exact E'|exact Ho].
  - destruct (O _ _ E) as (s & _ & E'); destruct (nth_error h n); [|discriminate].
    eapply W; [exact E'|congruence].
  - destruct (O _ _ E) as (s & _ & E'); eapply W; [exact E'|congruence].
  - destruct (O _ _ E) as (s & _ & E'); eapply W; [exact E'|congruence].
  - destruct (O _ _ E) as (s & _ & E'); eapply W; [exact E'|congruence].
  - destruct (O _ _ E) as (s & _ & E'); eapply W; [exact E'|congruence].
  - destruct (O _ _ E) as (s & _ & E'); eapply W; [exact E'|congruence].
Qed.

(** Objects are independent: whatever is done to other objects, through any history, an object that is not written to is
    unchanged - in particular a copy and its source do not see each other's writes. *)
Theorem C06_independence :
  forall (T : Type) (NT : Num T) P (h : heap T) es h' o s,
  reaches P h es h' -> nth_error h o = Some s -> Forall (fun e => written e <> Some o) es ->
  nth_error h' o = Some s.
Proof.
  intros T NT P h es h' o s Hr Hs Hf.
  induction Hr as [h|h e h1 es h2 HP Hst Hr IH|h e x es h2 HP Hst Hr IH]; auto;
    inversion Hf as [|e' es' Hw Hf']; subst; auto.
  apply IH; auto.
  assert (Ho : (o < length h)%nat) by (apply nth_error_Some; congruence).
  destruct (step_frame h e h1 o Hst Hw Ho) as [-> _]; exact Hs.
Qed.
Print Assumptions C06_independence.

Example C06_witness :
  let NT := f64_num libm0 in
  repr (mk 2 [[#1; #2]] 3) 2 [[#1; #2]] /\
  exists h, reaches typed [mk 2 [[#1; #2]] 3] [ECopy 0; EClone 0; ESet 1 0 [#5; #5]] h /\
    map asArray h = [[#1; #2]; [#5; #5]; [#1; #2]].
Proof.
  intros NT; split.
  - apply repr_mk; [repeat constructor|lia|reflexivity|reflexivity].
  - eexists; split.
    + repeat (eapply r_ok; [simpl; try lia; auto|reflexivity|]); apply r_nil.
    + reflexivity.
Qed.

(** cloning a default-constructed Serie divides by its item size 0 *)
Theorem C06_clone_of_invalid_refuted :
  exists s : Serie F64, clone s = UB.
Proof. exists (@serie_default F64 (f64_num libm0)); reflexivity. Qed.
Print Assumptions C06_clone_of_invalid_refuted.

(** ** C07 *)
Definition C07_statement : Prop :=
  forall s t : Serie F64, dimension (serie_assign t s) = dimension s /\
                          (forall c, clone s = Ok c -> dimension c = dimension s).

Theorem C07_dimension_refuted :
  exists s t c : Serie F64, dimension s = 2 /\ dimension (serie_assign t s) = 3 /\
    clone s = Ok c /\ dimension c = 3.
Proof. exists (mk 1 [[#1]] 2), (mk 1 [] 3), (mk 1 [[#1]] 3); repeat split. Qed.
Print Assumptions C07_dimension_refuted.

Theorem C07_statement_refuted : ~ C07_statement.
Proof.
  intros C; destruct C07_dimension_refuted as (s & t & c & H1 & H2 & _).
  destruct (C s t) as [G _]; rewrite H1, H2 in G; discriminate.
Qed.
Print Assumptions C07_statement_refuted.

(** Missing in the partial version: dimensions other than the default 3. *)
Theorem C07_dimension_partial :
  forall (T : Type) (s t : Serie T),
  dimension (serie_copy s) = dimension s /\
  dimension (serie_assign t s) = dimension t /\
  (forall c, clone s = Ok c -> dimension c = 3) /\
  (dimension s = 3 -> dimension t = 3 ->
     dimension (serie_assign t s) = dimension s /\ forall c, clone s = Ok c -> dimension c = dimension s).
Proof.
  intros T s t.
  assert (C : forall c, clone s = Ok c -> dimension c = 3).
  { intros c; unfold clone, serie_of; destruct (itemSize_ s =? 0); [discriminate|].
    intros E; injection E as <-; reflexivity. }
  repeat split; auto; unfold dimension in *; simpl; try congruence.
  intros c E; rewrite (C c E); congruence.
Qed.
Print Assumptions C07_dimension_partial.

(** ** C08 *)
Theorem C08_reCount :
  forall (T : Type) (NT : Num T) (s : Serie T) c,
  0 <= itemSize_ s < 2 ^ 31 -> 0 <= c < 2 ^ 32 -> c * itemSize_ s < 2 ^ 32 ->
  count (reCount s c) = c /\ itemSize (reCount s c) = itemSize s /\
  dimension (reCount s c) = dimension s /\
  (forall i, 0 <= i < c -> exists r, get_array (reCount s c) i = Ok r /\ len r = itemSize s /\
      forall x, In x r -> x = n0) /\
  repr (reCount s c) (itemSize_ s) (repeat (repeat n0 (Z.to_nat (itemSize_ s))) (Z.to_nat c)).
Proof.
  intros T NT s c Hk Hc Hm.
  assert (E : reCount s c = mk (itemSize_ s) (zrows (itemSize_ s) c) (dimension_ s)).
  { rewrite <- serie_n_mk by lia; reflexivity. }
  assert (R : repr (reCount s c) (itemSize_ s) (zrows (itemSize_ s) c)).
  { rewrite E; apply repr_mk; [apply rows_zrows; lia|lia|rewrite len_zrows; lia|rewrite len_zrows; lia]. }
  do 3 (split; [reflexivity|]); split; [|exact R].
  intros i Hi; rewrite (get_array_repr _ _ _ i R) by (rewrite len_zrows; lia).
  assert (Hn : nth_error (zrows (itemSize_ s) c) (Z.to_nat i) = Some (zrow (itemSize_ s))).
  { unfold zrows; apply nth_error_repeat; lia. }
  exists (zrow (itemSize_ s)); split; [apply rd_ok; split; [lia|exact Hn]|]; split.
  - unfold zrow, itemSize; rewrite len_repeat, u32_small; lia.
  - intros x Hx; unfold zrow in Hx; apply repeat_spec in Hx; exact Hx.
Qed.
Print Assumptions C08_reCount.

Example C08_witness :
  let NT := f64_num libm0 in
  let s := mk 2 [[#1; #2]] 7 in
  0 <= itemSize_ s < 2 ^ 31 /\ 3 * itemSize_ s < 2 ^ 32 /\ get_array (reCount s 3) 2 = Ok [#0; #0].
Proof. simpl; split; [lia|]; split; [lia|reflexivity]. Qed.
