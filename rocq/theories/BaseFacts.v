(** * Lemmas on [Base] and [Spec]. *)
From Verif Require Import Base Num Serie Spec.
From Coq Require Import Permutation.

Ltac Zify.zify_post_hook ::= Z.div_mod_to_equations.
Arguments Z.mul : simpl never.
Arguments Z.add : simpl never.
Arguments Z.sub : simpl never.
Arguments Z.div : simpl never.
Arguments Z.modulo : simpl never.
Arguments Z.of_nat : simpl never.
Arguments Z.to_nat : simpl never.

(** ** machine integers *)
Lemma u32_small x : 0 <= x < 4294967296 -> u32 x = x.
Proof. intros Hx; unfold u32, two32; apply Z.mod_small; lia. Qed.
Lemma u32_range x : 0 <= u32 x < 4294967296.
Proof. unfold u32, two32; apply Z.mod_pos_bound; lia. Qed.
Lemma u64_small x : 0 <= x < 18446744073709551616 -> u64 x = x.
Proof. intros Hx; unfold u64, two64; apply Z.mod_small; lia. Qed.
Lemma s32_small x : -2147483648 <= x < 2147483648 -> s32 x = x.
Proof. intros Hx; unfold s32, two31, two32; rewrite Z.mod_small; lia. Qed.

(** ** len *)
Lemma len_nonneg {A} (l : list A) : 0 <= len l.
Proof. unfold len; lia. Qed.
Lemma len_nil {A} : len (@nil A) = 0. Proof. reflexivity. Qed.
Lemma len_cons {A} (x : A) l : len (x :: l) = len l + 1.
Proof. unfold len; simpl length; lia. Qed.
Lemma len_app {A} (l r : list A) : len (l ++ r) = len l + len r.
Proof. unfold len; rewrite app_length; lia. Qed.
Lemma len_map {A B} (f : A -> B) l : len (map f l) = len l.
Proof. unfold len; rewrite map_length; reflexivity. Qed.
Lemma len_repeat {A} (x : A) n : len (repeat x n) = Z.of_nat n.
Proof. unfold len; rewrite repeat_length; reflexivity. Qed.
Lemma len_replicate {A} (x : A) n : 0 <= n -> len (replicate n x) = n.
Proof. intros Hn; unfold replicate; rewrite len_repeat; lia. Qed.
Lemma len_0 {A} (l : list A) : len l = 0 -> l = [].
Proof. destruct l; [reflexivity|rewrite len_cons; pose proof (len_nonneg l); lia]. Qed.
Lemma len_length {A} (l : list A) : Z.to_nat (len l) = length l.
Proof. unfold len; lia. Qed.

(** ** concat *)
Lemma len_concat {T} k (rows : list (list T)) :
  rows_of_size k rows -> len (concat rows) = k * len rows.
Proof.
  intros Hr; induction Hr as [|r rows Hx Hr IH]; [unfold len; simpl; lia|].
  simpl concat; rewrite len_app, len_cons, IH, Hx; lia.
Qed.

Lemma rows_app {T} k (a b : list (list T)) :
  rows_of_size k (a ++ b) <-> rows_of_size k a /\ rows_of_size k b.
Proof. apply Forall_app. Qed.

Lemma rows_col {T} (xs : list T) : rows_of_size 1 (col xs).
Proof. unfold col, rows_of_size; apply Forall_map, Forall_forall; reflexivity. Qed.

Lemma concat_col {T} (xs : list T) : concat (col xs) = xs.
Proof. induction xs as [|x xs IH]; [reflexivity|]; simpl; f_equal; exact IH. Qed.

Lemma len_col {T} (xs : list T) : len (col xs) = len xs.
Proof. apply len_map. Qed.

Lemma rows_size1_col {T} (rows : list (list T)) :
  rows_of_size 1 rows -> rows = col (concat rows).
Proof.
  intros Hr; induction Hr as [|r rows Hx Hr IH]; [reflexivity|].
  destruct r as [|x [|y r]]; rewrite ?len_cons in Hx.
  - discriminate Hx.
  - simpl; f_equal; exact IH.
  - pose proof (len_nonneg r); lia.
Qed.

(** ** indices *)
Definition seqZ (a n : nat) : list Z := map Z.of_nat (seq a n).

Lemma iota_seqZ n : iota n = seqZ 0 (Z.to_nat n).
Proof. reflexivity. Qed.
Lemma iota_len {A} (l : list A) : iota (len l) = seqZ 0 (length l).
Proof. unfold iota; rewrite len_length; reflexivity. Qed.
Lemma len_iota n : 0 <= n -> len (iota n) = n.
Proof. intros Hn; unfold iota; rewrite len_map; unfold len; rewrite seq_length; lia. Qed.
Lemma seqZ_S a n : seqZ a (S n) = Z.of_nat a :: seqZ (S a) n.
Proof. reflexivity. Qed.
Lemma seqZ_length a n : length (seqZ a n) = n.
Proof. unfold seqZ; rewrite map_length, seq_length; reflexivity. Qed.
Lemma seqZ_app a n m : seqZ a (n + m) = seqZ a n ++ seqZ (a + n) m.
Proof. unfold seqZ; rewrite seq_app, map_app; reflexivity. Qed.
Lemma in_seqZ a n i : In i (seqZ a n) <-> Z.of_nat a <= i < Z.of_nat (a + n).
Proof.
  unfold seqZ; rewrite in_map_iff; split.
  - intros (x & <- & Hx); apply in_seq in Hx; lia.
  - intros Hi; exists (Z.to_nat i); split; [lia|]; apply in_seq; lia.
Qed.
Lemma in_iota n i : In i (iota n) <-> 0 <= i < n.
Proof. rewrite iota_seqZ, in_seqZ; lia. Qed.

(** ** checked access *)
Lemma rd_nth_error {A} (l : list A) i :
  rd l i = if 0 <=? i then match nth_error l (Z.to_nat i) with Some x => Ok x | None => UB end
           else UB.
Proof.
  unfold rd; destruct (Z.leb_spec 0 i); [|reflexivity]; simpl.
  destruct (Z.ltb_spec i (len l)) as [Hlt|Hge]; [reflexivity|].
  destruct (nth_error l (Z.to_nat i)) eqn:E; [|reflexivity].
  assert (Hn : nth_error l (Z.to_nat i) <> None) by congruence.
  apply nth_error_Some in Hn; unfold len in Hge; lia.
Qed.

Lemma rd_nat {A} (l : list A) n x : nth_error l n = Some x -> rd l (Z.of_nat n) = Ok x.
Proof.
  intros E; rewrite rd_nth_error; destruct (Z.leb_spec 0 (Z.of_nat n)); [|lia].
  rewrite Nat2Z.id, E; reflexivity.
Qed.

Lemma rd_ok {A} (l : list A) i x :
  rd l i = Ok x <-> 0 <= i /\ nth_error l (Z.to_nat i) = Some x.
Proof.
  rewrite rd_nth_error; destruct (Z.leb_spec 0 i).
  - destruct (nth_error l (Z.to_nat i)) as [y|]; split; intros E.
    + injection E as <-; auto.
    + destruct E as [_ E]; injection E as <-; reflexivity.
    + discriminate.
    + destruct E as [_ E]; discriminate.
  - split; [discriminate|lia].
Qed.

Lemma rd_in_range {A} (l : list A) i : 0 <= i < len l -> exists x, rd l i = Ok x /\ nth_error l (Z.to_nat i) = Some x.
Proof.
  intros Hi; destruct (nth_error l (Z.to_nat i)) as [x|] eqn:E.
  - exists x; split; [apply rd_ok; split; [lia|exact E]|reflexivity].
  - apply nth_error_None in E; unfold len in Hi; lia.
Qed.

Lemma rd_nth {A} (l : list A) i d : 0 <= i < len l -> rd l i = Ok (nth (Z.to_nat i) l d).
Proof.
  intros Hi; destruct (rd_in_range l i Hi) as (x & -> & E).
  f_equal; symmetry; apply nth_error_nth; exact E.
Qed.

Lemma rd_out {A} (l : list A) i : i < 0 \/ len l <= i -> rd l i = UB.
Proof.
  intros Hi; unfold rd.
  destruct (Z.leb_spec 0 i), (Z.ltb_spec i (len l)); simpl; try reflexivity; lia.
Qed.

Lemma rd_map {A B} (f : A -> B) l i :
  rd (map f l) i = let* x := rd l i in Ok (f x).
Proof.
  rewrite !rd_nth_error; destruct (0 <=? i); [|reflexivity].
  rewrite nth_error_map; destruct (nth_error l (Z.to_nat i)); reflexivity.
Qed.

Lemma upd_nat_length {A} (l : list A) n x : length (upd_nat l n x) = length l.
Proof. revert n; induction l as [|y l IH]; intros [|n]; simpl; auto. Qed.
Lemma len_upd {A} (l : list A) n x : len (upd_nat l n x) = len l.
Proof. unfold len; rewrite upd_nat_length; reflexivity. Qed.
Lemma upd_nat_mid {A} (l r : list A) x y : upd_nat (l ++ x :: r) (length l) y = l ++ y :: r.
Proof. induction l as [|z l IH]; simpl; [reflexivity|]; f_equal; exact IH. Qed.
Lemma upd_nat_app_l {A} (l r : list A) n x :
  (n < length l)%nat -> upd_nat (l ++ r) n x = upd_nat l n x ++ r.
Proof.
  revert n; induction l as [|y l IH]; intros [|n] Hn; simpl in *; try lia; [reflexivity|].
  f_equal; apply IH; lia.
Qed.
Lemma upd_nat_app_r {A} (l r : list A) n x :
  upd_nat (l ++ r) (length l + n) x = l ++ upd_nat r n x.
Proof. induction l as [|y l IH]; simpl; [reflexivity|]; f_equal; exact IH. Qed.
Lemma nth_error_upd_same {A} (l : list A) n x :
  (n < length l)%nat -> nth_error (upd_nat l n x) n = Some x.
Proof.
  revert n; induction l as [|y l IH]; intros [|n] Hn; simpl in *; try lia; [reflexivity|].
  apply IH; lia.
Qed.
Lemma nth_error_upd_other {A} (l : list A) n m x :
  n <> m -> nth_error (upd_nat l n x) m = nth_error l m.
Proof.
  revert n m; induction l as [|y l IH]; intros [|n] [|m] Hn; simpl; try congruence; auto.
Qed.
Lemma upd_nat_same {A} (l : list A) n x : nth_error l n = Some x -> upd_nat l n x = l.
Proof.
  revert n; induction l as [|y l IH]; intros [|n]; simpl; try discriminate.
  - intros E; injection E as <-; reflexivity.
  - intros E; f_equal; apply IH; exact E.
Qed.
Lemma upd_nat_twice {A} (l : list A) n x y : upd_nat (upd_nat l n x) n y = upd_nat l n y.
Proof. revert n; induction l as [|z l IH]; intros [|n]; simpl; f_equal; auto. Qed.
Lemma upd_nat_comm {A} (l : list A) n m x y :
  n <> m -> upd_nat (upd_nat l n x) m y = upd_nat (upd_nat l m y) n x.
Proof.
  revert n m; induction l as [|z l IH]; intros [|n] [|m] Hn; simpl; f_equal; try congruence.
  apply IH; congruence.
Qed.
Lemma map_upd {A B} (f : A -> B) l n x : map f (upd_nat l n x) = upd_nat (map f l) n (f x).
Proof. revert n; induction l as [|y l IH]; intros [|n]; simpl; f_equal; auto. Qed.

Lemma wr_ok {A} (l : list A) i x : 0 <= i < len l -> wr l i x = Ok (upd_nat l (Z.to_nat i) x).
Proof.
  intros Hi; unfold wr; destruct (Z.leb_spec 0 i), (Z.ltb_spec i (len l)); try lia; reflexivity.
Qed.
Lemma wr_out {A} (l : list A) i x : i < 0 \/ len l <= i -> wr l i x = UB.
Proof.
  intros Hi; unfold wr; destruct (Z.leb_spec 0 i), (Z.ltb_spec i (len l)); simpl; try lia; reflexivity.
Qed.

(** ** mapO / foldO *)
Lemma mapO_ok {A B} (f : A -> outcome B) (g : A -> B) l :
  (forall x, In x l -> f x = Ok (g x)) -> mapO f l = Ok (map g l).
Proof.
  induction l as [|x l IH]; intros Hf; [reflexivity|].
  simpl; rewrite Hf by (left; reflexivity); simpl.
  rewrite IH; [reflexivity|intros y Hy; apply Hf; right; exact Hy].
Qed.
Lemma mapO_ext {A B} (f g : A -> outcome B) l :
  (forall x, In x l -> f x = g x) -> mapO f l = mapO g l.
Proof.
  induction l as [|x l IH]; intros Hf; [reflexivity|].
  simpl; rewrite Hf by (left; reflexivity).
  destruct (g x); simpl; [|reflexivity|reflexivity].
  rewrite IH; [reflexivity|intros y Hy; apply Hf; right; exact Hy].
Qed.
Lemma foldO_app {A B} (f : A -> B -> outcome A) l r a :
  foldO f (l ++ r) a = let* a' := foldO f l a in foldO f r a'.
Proof.
  revert a; induction l as [|x l IH]; intros a; [reflexivity|].
  simpl; destruct (f a x); simpl; auto.
Qed.
Lemma foldO_ext {A B} (f g : A -> B -> outcome A) l a :
  (forall a x, In x l -> f a x = g a x) -> foldO f l a = foldO g l a.
Proof.
  revert a; induction l as [|x l IH]; intros a Hf; [reflexivity|].
  simpl; rewrite Hf by (left; reflexivity).
  destruct (g a x); simpl; [|reflexivity|reflexivity].
  apply IH; intros b y Hy; apply Hf; right; exact Hy.
Qed.
Lemma foldO_map {A B C} (f : A -> B -> outcome A) (h : C -> B) l a :
  foldO f (map h l) a = foldO (fun a x => f a (h x)) l a.
Proof. revert a; induction l as [|x l IH]; intros a; [reflexivity|]; simpl; destruct (f a (h x)); simpl; auto. Qed.

(** reading the elements of a list one by one, by index *)
Lemma mapO_rd_seqZ {A} (pre l post : list A) :
  mapO (rd (pre ++ l ++ post)) (seqZ (length pre) (length l)) = Ok l.
Proof.
  revert pre; induction l as [|x l IH]; intros pre; [reflexivity|].
  simpl length; rewrite seqZ_S; simpl.
  rewrite (rd_nat _ _ x) by (rewrite nth_error_app2 by lia; rewrite Nat.sub_diag; reflexivity).
  simpl.
  specialize (IH (pre ++ [x])).
  rewrite app_length in IH; simpl in IH; rewrite Nat.add_1_r in IH.
  rewrite <- app_assoc in IH; simpl in IH; rewrite IH; reflexivity.
Qed.
Lemma mapO_rd_iota {A} (l : list A) : mapO (rd l) (iota (len l)) = Ok l.
Proof.
  rewrite iota_len; pose proof (mapO_rd_seqZ [] l []) as E.
  rewrite app_nil_r in E; exact E.
Qed.

(** ** enum *)
Lemma enum_from_length {A} i (l : list A) : length (enum_from i l) = length l.
Proof. revert i; induction l as [|x l IH]; intros i; simpl; auto. Qed.
Lemma enum_from_app {A} i (l r : list A) :
  enum_from i (l ++ r) = enum_from i l ++ enum_from (i + len l) r.
Proof.
  revert i; induction l as [|x l IH]; intros i.
  - simpl; f_equal; rewrite len_nil; lia.
  - simpl; f_equal; rewrite IH; f_equal; f_equal; rewrite len_cons; lia.
Qed.
Lemma map_fst_enum {A} i (l : list A) : map fst (enum_from i l) = l.
Proof. revert i; induction l as [|x l IH]; intros i; simpl; f_equal; auto. Qed.
Lemma map_snd_enum {A} a (l : list A) : map snd (enum_from (Z.of_nat a) l) = seqZ a (length l).
Proof.
  revert a; induction l as [|x l IH]; intros a; [reflexivity|].
  simpl; rewrite seqZ_S; f_equal. replace (Z.of_nat a + 1) with (Z.of_nat (S a)) by lia. apply IH.
Qed.
Lemma enum_from_map {A B} (f : A -> B) i l :
  enum_from i (map f l) = map (fun p => (f (fst p), snd p)) (enum_from i l).
Proof. revert i; induction l as [|x l IH]; intros i; simpl; f_equal; auto. Qed.
Lemma nth_error_enum {A} (l : list A) i n x :
  nth_error l n = Some x -> nth_error (enum_from i l) n = Some (x, i + Z.of_nat n).
Proof.
  revert i n; induction l as [|y l IH]; intros i [|n] E; simpl in *; try discriminate.
  - injection E as <-; do 2 f_equal; lia.
  - rewrite (IH (i + 1) n E); do 2 f_equal; lia.
Qed.

(** ** callback loops *)
Lemma mbind_ok {St A B} (m : M St A) (k : A -> M St B) st a st' :
  m st = (Ok a, st') -> mbind m k st = k a st'.
Proof. unfold mbind; intros ->; reflexivity. Qed.

Lemma mbind_cong {St A B} (m m' : M St A) (k k' : A -> M St B) st :
  m st = m' st -> (forall a st, k a st = k' a st) -> mbind m k st = mbind m' k' st.
Proof. unfold mbind; intros -> Hk; destruct (m' st) as [[a|e|] st1]; auto. Qed.

Lemma mbind_assoc {St A B C} (m : M St A) (k : A -> M St B) (k' : B -> M St C) st :
  mbind (mbind m k) k' st = mbind m (fun a => mbind (k a) k') st.
Proof. unfold mbind; destruct (m st) as [[a|e|] st1]; reflexivity. Qed.

Lemma mapM_app {St A B} (f : A -> M St B) l r st :
  mapM f (l ++ r) st = (let! a := mapM f l in let! b := mapM f r in ret (a ++ b)) st.
Proof.
  revert st; induction l as [|x l IH]; intros st.
  - unfold mbind, ret; simpl; unfold ret; destruct (mapM f r st) as [[ys|e|] st']; reflexivity.
  - simpl; unfold mbind in *; destruct (f x st) as [[y|e|] st1]; try reflexivity.
    rewrite IH; destruct (mapM f l st1) as [[ys|e|] st2]; try reflexivity.
    unfold ret; destruct (mapM f r st2) as [[zs|e|] st3]; reflexivity.
Qed.

(** index loop reading elements = traversal of the enumerated elements *)
Lemma mapM_index {St A B} (get : Z -> outcome A) (f : A -> Z -> M St B) :
  forall xs a, (forall j x, nth_error xs j = Some x -> get (Z.of_nat (a + j)) = Ok x) ->
  forall st, mapM (fun i => let! x := lift (get i) in f x i) (seqZ a (length xs)) st
             = mapM (fun p => f (fst p) (snd p)) (enum_from (Z.of_nat a) xs) st.
Proof.
  induction xs as [|x xs IH]; intros a Hg st; [reflexivity|].
  simpl length; rewrite seqZ_S; simpl.
  assert (E : get (Z.of_nat a) = Ok x) by (rewrite <- (Nat.add_0_r a); apply Hg; reflexivity).
  unfold mbind, lift; rewrite E; destruct (f x (Z.of_nat a) st) as [[y|e|] st1]; try reflexivity.
  replace (Z.of_nat a + 1) with (Z.of_nat (S a)) by lia.
  rewrite <- IH; [reflexivity|].
  intros j z Hj; replace (S a + j)%nat with (a + S j)%nat by lia; apply Hg; exact Hj.
Qed.

Lemma foldM_index {St A C} (get : Z -> outcome A) (f : C -> A -> Z -> M St C) :
  forall xs a, (forall j x, nth_error xs j = Some x -> get (Z.of_nat (a + j)) = Ok x) ->
  forall acc st, foldM (fun acc i => let! x := lift (get i) in f acc x i) (seqZ a (length xs)) acc st
             = foldM (fun acc p => f acc (fst p) (snd p)) (enum_from (Z.of_nat a) xs) acc st.
Proof.
  induction xs as [|x xs IH]; intros a Hg acc st; [reflexivity|].
  simpl length; rewrite seqZ_S; simpl.
  assert (E : get (Z.of_nat a) = Ok x) by (rewrite <- (Nat.add_0_r a); apply Hg; reflexivity).
  unfold mbind, lift; rewrite E; destruct (f acc x (Z.of_nat a) st) as [[y|e|] st1]; try reflexivity.
  replace (Z.of_nat a + 1) with (Z.of_nat (S a)) by lia.
  rewrite <- IH; [reflexivity|].
  intros j z Hj; replace (S a + j)%nat with (a + S j)%nat by lia; apply Hg; exact Hj.
Qed.

Lemma calls_mapM {St A B} (f : A -> Z -> M St B) l st ys st' :
  calls f l st ys st' <-> mapM (fun p => f (fst p) (snd p)) l st = (Ok ys, st').
Proof.
  split.
  - induction 1 as [st|x i r st y st1 ys st2 Hf Hr IH]; [reflexivity|].
    simpl; unfold mbind, ret; rewrite Hf, IH; reflexivity.
  - revert st ys; induction l as [|[x i] l IH]; intros st ys; simpl; unfold ret, mbind.
    + intros E; injection E as <- <-; constructor.
    + destruct (f x i st) as [[y|e|] st1] eqn:Ef; try discriminate.
      destruct (mapM _ l st1) as [[zs|e|] st2] eqn:El; try discriminate.
      intros E; injection E as <- <-; econstructor; eauto.
Qed.
Lemma calls_throw_mapM {St A B} (f : A -> Z -> M St B) l st e st' :
  calls_throw f l st e st' <-> mapM (fun p => f (fst p) (snd p)) l st = (Throw e, st').
Proof.
  split.
  - induction 1 as [x i r st e st1 Hf|x i r st y st1 e st2 Hf Hr IH];
      simpl; unfold mbind, ret; rewrite Hf; [reflexivity|]; rewrite IH; reflexivity.
  - revert st; induction l as [|[x i] l IH]; intros st; simpl; unfold ret, mbind; [discriminate|].
    destruct (f x i st) as [[y|e'|] st1] eqn:Ef; try discriminate.
    + destruct (mapM _ l st1) as [[zs|e'|] st2] eqn:El; try discriminate.
      intros E; injection E as <- <-; eapply ct_later; eauto.
    + intros E; injection E as <- <-; apply ct_here; exact Ef.
Qed.
Lemma calls_ub_mapM {St A B} (f : A -> Z -> M St B) l st st' :
  calls_ub f l st st' <-> mapM (fun p => f (fst p) (snd p)) l st = (UB, st').
Proof.
  split.
  - induction 1 as [x i r st st1 Hf|x i r st y st1 st2 Hf Hr IH];
      simpl; unfold mbind, ret; rewrite Hf; [reflexivity|]; rewrite IH; reflexivity.
  - revert st; induction l as [|[x i] l IH]; intros st; simpl; unfold ret, mbind; [discriminate|].
    destruct (f x i st) as [[y|e'|] st1] eqn:Ef; try discriminate.
    + destruct (mapM _ l st1) as [[zs|e'|] st2] eqn:El; try discriminate.
      intros E; injection E as <-; eapply cu_later; eauto.
    + intros E; injection E as <-; apply cu_here; exact Ef.
Qed.

(** every sequence of calls has exactly one of the three fates *)
Lemma calls_total {St A B} (f : A -> Z -> M St B) l st :
  (exists ys st', calls f l st ys st') \/ (exists e st', calls_throw f l st e st') \/
  (exists st', calls_ub f l st st').
Proof.
  destruct (mapM (fun p => f (fst p) (snd p)) l st) as [[ys|e|] st'] eqn:E.
  - left; exists ys, st'; apply calls_mapM; exact E.
  - right; left; exists e, st'; apply calls_throw_mapM; exact E.
  - right; right; exists st'; apply calls_ub_mapM; exact E.
Qed.

Lemma calls_length {St A B} (f : A -> Z -> M St B) l st ys st' :
  calls f l st ys st' -> length ys = length l.
Proof. induction 1; simpl; auto. Qed.

Lemma calls_pure {St A B} (g : A -> Z -> B) l (st : St) :
  calls (fun x i => ret (g x i)) l st (map (fun p => g (fst p) (snd p)) l) st.
Proof. induction l as [|[x i] l IH]; simpl; econstructor; [reflexivity|exact IH]. Qed.

Lemma mapM_ext {St A B} (f g : A -> M St B) l st :
  (forall x st, In x l -> f x st = g x st) -> mapM f l st = mapM g l st.
Proof.
  revert st; induction l as [|x l IH]; intros st Hf; [reflexivity|].
  simpl; unfold mbind; rewrite Hf by (left; reflexivity).
  destruct (g x st) as [[y|e|] st1]; try reflexivity.
  rewrite IH; [reflexivity|intros z st2 Hz; apply Hf; right; exact Hz].
Qed.
Lemma foldM_ext {St A B} (f g : A -> B -> M St A) l a st :
  (forall a x st, In x l -> f a x st = g a x st) -> foldM f l a st = foldM g l a st.
Proof.
  revert a st; induction l as [|x l IH]; intros a st Hf; [reflexivity|].
  simpl; unfold mbind; rewrite Hf by (left; reflexivity).
  destruct (g a x st) as [[y|e|] st1]; try reflexivity.
  apply IH; intros b z st2 Hz; apply Hf; right; exact Hz.
Qed.

(** a fold that appends one thing per element, as a traversal *)
Lemma foldM_collect {St A B C} (f : A -> M St B) (k : B -> list C) l acc st :
  foldM (fun acc x => let! b := f x in ret (acc ++ k b)) l acc st
  = (let! bs := mapM f l in ret (acc ++ concat (map k bs))) st.
Proof.
  revert acc st; induction l as [|x l IH]; intros acc st.
  - unfold mbind, ret; simpl; unfold ret; rewrite app_nil_r; reflexivity.
  - simpl; unfold mbind in *; destruct (f x st) as [[y|e|] st1]; try reflexivity.
    unfold ret in *; rewrite IH; destruct (mapM f l st1) as [[ys|e|] st2]; try reflexivity.
    simpl; rewrite app_assoc; reflexivity.
Qed.

(** ** select *)
Lemma select_length_le {A} (xs : list A) bs : (length (select xs bs) <= length xs)%nat.
Proof. revert bs; induction xs as [|x xs IH]; intros [|b bs]; simpl; try lia. specialize (IH bs); destruct b; simpl; lia. Qed.
Lemma select_map {A B} (f : A -> B) xs bs : select (map f xs) bs = map f (select xs bs).
Proof. revert bs; induction xs as [|x xs IH]; intros [|b bs]; simpl; try reflexivity. destruct b; simpl; rewrite IH; reflexivity. Qed.
Lemma select_filter {A} (p : A -> bool) xs : select xs (map p xs) = filter p xs.
Proof. induction xs as [|x xs IH]; simpl; [reflexivity|]. destruct (p x); rewrite IH; reflexivity. Qed.
Lemma select_true {A} (xs : list A) : select xs (map (fun _ => true) xs) = xs.
Proof. induction xs as [|x xs IH]; simpl; [reflexivity|]; rewrite IH; reflexivity. Qed.
Lemma select_rows {T} k (rows : list (list T)) bs : rows_of_size k rows -> rows_of_size k (select rows bs).
Proof.
  intros Hr; revert bs; induction Hr as [|r rows Hx Hr IH]; intros [|b bs]; simpl; try constructor.
  destruct b; [constructor|]; auto; apply IH.
Qed.
Lemma select_perm {A} (xs : list A) bs : length bs = length xs ->
  Permutation xs (select xs bs ++ select xs (map negb bs)).
Proof.
  revert bs; induction xs as [|x xs IH]; intros [|b bs] Hl; simpl in *; try discriminate; [constructor|].
  injection Hl as Hl; specialize (IH bs Hl); destruct b; simpl.
  - constructor; exact IH.
  - apply Permutation_cons_app; exact IH.
Qed.
