(** * C164: which exceptions a call can throw. *)
From Coq Require Import ZArith List Lia Bool.
From Verif Require Import Base Num Serie Functional Utils Mathf Views Algebra Stats Eigen Geo SubAdd Random Spec BaseFacts.
Import ListNotations.
Open Scope Z_scope.

(** a call that throws, throws an exception of the set [E] *)
Definition throws {A} (E : exn -> Prop) (o : outcome A) : Prop := forall e, o = Throw e -> E e.
Definition throwsM {St A} (E : exn -> Prop) (m : M St A) : Prop := forall st, throws E (fst (m st)).
(** [itemSize_] is an [int]; it is negative only if the program passed a negative number to a constructor *)
Definition natural {T} (s : Serie T) : Prop := 0 <= itemSize_ s < 2147483648.
Definition nothing : exn -> Prop := fun _ => False.
Definition invalid : exn -> Prop := fun e => e = InvalidArgument.
Definition runtime : exn -> Prop := fun e => e = RuntimeError.
Definition either (E F : exn -> Prop) : exn -> Prop := fun e => E e \/ F e.

(** ** the logic: exceptions in [E], results in [P], undefined behaviour not excluded *)
Definition comes {A} (E : exn -> Prop) (P : A -> Prop) (o : outcome A) : Prop :=
  match o with Ok a => P a | Throw e => E e | UB => True end.
Definition comesM {St A} (E : exn -> Prop) (P : A -> Prop) (m : M St A) : Prop := forall st, comes E P (fst (m st)).
Notation any := (fun _ => True).

Section Logic.
  Context (E : exn -> Prop).
  Lemma comes_throws {A} (P : A -> Prop) o : comes E P o -> throws E o.
  Proof. intros H e ->; exact H. Qed.
  Lemma throws_comes {A} (o : outcome A) : throws E o -> comes E any o.
  Proof. destruct o; intros H; cbn; auto. Qed.
  Lemma comesM_throws {St A} (P : A -> Prop) (m : M St A) : comesM E P m -> throwsM E m.
  Proof. intros H st; apply (comes_throws P), H. Qed.
  Lemma throwsM_comes {St A} (m : M St A) : throwsM E m -> comesM E any m.
  Proof. intros H st; apply throws_comes, H. Qed.
  Lemma comes_mono {A} (P Q : A -> Prop) o : (forall a, P a -> Q a) -> comes E P o -> comes E Q o.
  Proof. destruct o; cbn; auto. Qed.
  Lemma comes_any {A} (P : A -> Prop) o : comes E P o -> comes E any o.
  Proof. apply comes_mono; auto. Qed.
  Lemma comes_bind {A B} (P : A -> Prop) (Q : B -> Prop) o f : comes E P o -> (forall a, P a -> comes E Q (f a)) -> comes E Q (let* a := o in f a).
  Proof. destruct o; cbn; auto. Qed.
  Lemma comes_bind0 {A B} (Q : B -> Prop) (o : outcome A) f : comes E any o -> (forall a, comes E Q (f a)) -> comes E Q (let* a := o in f a).
  Proof. intros H G; apply (comes_bind any); auto. Qed.
  Lemma comes_foldO {A B} (P : A -> Prop) (f : A -> B -> outcome A) l a : P a -> (forall a x, P a -> comes E P (f a x)) -> comes E P (foldO f l a).
  Proof. intros Ha Hf; revert a Ha; induction l as [|x l IH]; intros a Ha; [exact Ha|]; cbn [foldO]. apply (comes_bind P); [apply Hf, Ha|exact IH]. Qed.
  Lemma comes_foldO_in {A B} (P : A -> Prop) (f : A -> B -> outcome A) l a : P a -> (forall a x, In x l -> P a -> comes E P (f a x)) -> comes E P (foldO f l a).
  Proof.
    intros Ha Hf; revert a Ha; induction l as [|x l IH]; intros a Ha; [exact Ha|]; cbn [foldO].
    apply (comes_bind P); [apply Hf; [left; reflexivity|exact Ha]|intros b Hb; apply IH; [intros c y Hy; apply Hf; right; exact Hy|exact Hb]].
  Qed.
  Lemma comes_foldO0 {A B} (f : A -> B -> outcome A) l a : (forall a x, comes E any (f a x)) -> comes E any (foldO f l a).
  Proof. intros Hf; apply comes_foldO; auto. Qed.
  Lemma comes_mapO {A B} (P : B -> Prop) (f : A -> outcome B) l : (forall x, In x l -> comes E P (f x)) -> comes E (fun r => length r = length l) (mapO f l).
  Proof.
    induction l as [|x l IH]; intros Hf; [reflexivity|]. cbn [mapO]. apply (comes_bind P); [apply Hf; left; reflexivity|]. intros b _.
    apply (comes_bind (fun r => length r = length l)); [apply IH; intros y Hy; apply Hf; right; exact Hy|]. intros r Hr; cbn; lia.
  Qed.
  Lemma comes_mapO0 {A B} (f : A -> outcome B) l : (forall x, In x l -> comes E any (f x)) -> comes E any (mapO f l).
  Proof. intros H; eapply comes_any, comes_mapO; exact H. Qed.
  Lemma comes_rd {A} (l : list A) i : comes E any (rd l i).
  Proof. unfold rd; repeat match goal with |- comes _ _ (match ?x with _ => _ end) => destruct x end; exact I. Qed.
  Lemma comes_rd_in {A} (l : list A) i : comes E (fun x => In x l) (rd l i).
  Proof. unfold rd; destruct ((0 <=? i) && (i <? len l)); [|exact I]. destruct (nth_error l (Z.to_nat i)) eqn:X; [exact (nth_error_In _ _ X)|exact I]. Qed.
  Lemma comes_wr {A} (l : list A) i x : comes E (fun r => len r = len l) (wr l i x).
  Proof. destruct (Z_le_gt_dec 0 i) as [H|H]; [destruct (Z_lt_ge_dec i (len l)) as [G|G]|]; [rewrite wr_ok by lia; cbn; apply len_upd| |]; unfold wr;
    (destruct ((0 <=? i) && (i <? len l)) eqn:X; [lia|exact I]). Qed.
  Lemma comes_wr0 {A} (l : list A) i x : comes E any (wr l i x).
  Proof. eapply comes_any, comes_wr. Qed.

  Lemma comesM_bind {St A B} (P : A -> Prop) (Q : B -> Prop) (m : M St A) (f : A -> M St B) :
    comesM E P m -> (forall a, P a -> comesM E Q (f a)) -> comesM E Q (mbind m f).
  Proof. intros Hm Hf st; specialize (Hm st); unfold mbind; destruct (m st) as [[a|e|] st1]; cbn in *; [apply Hf; exact Hm|exact Hm|exact I]. Qed.
  Lemma comesM_bind0 {St A B} (Q : B -> Prop) (m : M St A) (f : A -> M St B) : comesM E any m -> (forall a, comesM E Q (f a)) -> comesM E Q (mbind m f).
  Proof. intros Hm Hf; apply (comesM_bind any); auto. Qed.
  Lemma comesM_lift {St A} (P : A -> Prop) o : comes E P o -> comesM E P (@lift St A o).
  Proof. intros H st; exact H. Qed.
  Lemma comesM_ret {St A} (P : A -> Prop) a : P a -> comesM E P (@ret St A a).
  Proof. intros H st; exact H. Qed.
  Lemma comesM_throw {St A} (P : A -> Prop) e : E e -> comesM E P (@throwM St A e).
  Proof. intros H st; exact H. Qed.
  Lemma comesM_mono {St A} (P Q : A -> Prop) (m : M St A) : (forall a, P a -> Q a) -> comesM E P m -> comesM E Q m.
  Proof. intros H Hm st; apply (comes_mono P); [exact H|apply Hm]. Qed.
  Lemma comesM_foldM {St A B} (P : A -> Prop) (f : A -> B -> M St A) l a : P a -> (forall a x, P a -> comesM E P (f a x)) -> comesM E P (foldM f l a).
  Proof. intros Ha Hf; revert a Ha; induction l as [|x l IH]; intros a Ha; [apply comesM_ret, Ha|]. cbn [foldM]. apply (comesM_bind P); [apply Hf, Ha|exact IH]. Qed.
  Lemma comesM_foldM0 {St A B} (f : A -> B -> M St A) l a : (forall a x, comesM E any (f a x)) -> comesM E any (foldM f l a).
  Proof. intros Hf; apply comesM_foldM; auto. Qed.
  Lemma comesM_mapM0 {St A B} (f : A -> M St B) l : (forall x, comesM E any (f x)) -> comesM E any (mapM f l).
  Proof. intros Hf; induction l as [|x l IH]; [apply comesM_ret; exact I|]. cbn [mapM]. apply comesM_bind0; [apply Hf|intros b; apply comesM_bind0; [exact IH|intros r; apply comesM_ret; exact I]]. Qed.
  Lemma comes_run {A} (P : A -> Prop) (m : M unit A) : comesM E P m -> comes E P (run m).
  Proof. intros H; apply H. Qed.
End Logic.

Ltac thr :=
  repeat first
    [ exact I
    | assumption
    | match goal with
      | |- comes _ _ (Ok _) => exact I
      | |- comes _ _ UB => exact I
      | |- comes _ _ (Throw _) => cbn; assumption
      | |- comesM _ _ (ret _) => apply comesM_ret; exact I
      | |- comesM _ _ (throwM _) => apply comesM_throw; assumption
      | |- comesM _ _ (lift _) => apply comesM_lift
      | |- comesM _ _ (mbind _ _) => apply comesM_bind0; [|intros ?]
      | |- comesM _ _ (foldM _ _ _) => apply comesM_foldM0; intros ? ?
      | |- comesM _ _ (mapM _ _) => apply comesM_mapM0; intros ?
      | |- comes _ _ (run _) => apply comes_run
      | |- comes _ _ (rd _ _) => apply comes_rd
      | |- comes _ _ (wr _ _ _) => apply comes_wr0
      | |- comes _ _ (obind _ _) => apply comes_bind0; [|intros ?]
      | |- comes _ _ (foldO _ _ _) => apply comes_foldO0; intros ? ?
      | |- comes _ _ (mapO _ _) => apply comes_mapO0; intros ? ?
      | |- comes _ _ (match ?x with _ => _ end) => destruct x eqn:?
      | |- comesM _ _ (match ?x with _ => _ end) => destruct x eqn:?
      end ].

(** ** accessors, for any Serie; [E] contains what is needed *)
Section Access.
  Context {T : Type} {NT : Num T} (E : exn -> Prop).
  Lemma c_u32 (x : T) : comes E any (n_to_u32 x).
  Proof. unfold n_to_u32; thr. Qed.
  Lemma c_u64 (x : T) : comes E any (n_to_u64 x).
  Proof. unfold n_to_u64; thr. Qed.
  Lemma c_of k (l : list T) d : comes E any (serie_of k l d).
  Proof. unfold serie_of; thr. Qed.
  Lemma c_of_size k (l : list T) d : comes E (fun r => itemSize_ r = k) (serie_of k l d).
  Proof. unfold serie_of; destruct (k =? 0); [exact I|reflexivity]. Qed.
  Lemma c_read (s : Serie T) i : natural s -> comes E (fun v => len v = itemSize_ s) (read_item s i).
  Proof.
    intros [H0 H1]; unfold read_item. destruct (itemSize_ s <? 0) eqn:X; [lia|].
    eapply comes_mono; [|apply comes_mapO with (P := any); intros x _; apply comes_rd]. cbn beta; intros r Hr; unfold len; rewrite Hr. unfold iota; rewrite map_length, seq_length; lia.
  Qed.
  Lemma c_array_len (s : Serie T) i : natural s -> comes E (fun v => len v = itemSize_ s) (get_array s i).
  Proof. intros H; unfold get_array. destruct (itemSize_ s =? 1) eqn:X; [|apply c_read; exact H]. apply comes_bind0; [apply comes_rd|]. intros x; change (1 = itemSize_ s); lia. Qed.
  Lemma c_array (s : Serie T) i : natural s -> comes E any (get_array s i).
  Proof. intros H; eapply comes_any, c_array_len, H. Qed.
  Lemma c_value (s : Serie T) i : natural s -> comes E any (value s i).
  Proof. intros H; eapply comes_any, c_read, H. Qed.
  Lemma c_write (s : Serie T) i v : comes E any (write_item s i v).
  Proof. unfold write_item; thr. Qed.
  Lemma c_each n f (r : list T) : (forall k x, comes E any (f k x)) -> comes E (fun r' => len r' = len r) (upd_each n f r).
  Proof.
    intros Hf; unfold upd_each. apply comes_foldO; [reflexivity|]. intros a k Ha. apply comes_bind0; [apply comes_rd|intros x]. apply comes_bind0; [apply Hf|intros y].
    eapply comes_mono; [|apply comes_wr]. cbn beta; intros r' Hr'; congruence.
  Qed.
  Lemma c_sort sorter {A} (lt : A -> A -> bool) l : comes E any (std_sort sorter lt l).
  Proof. unfold std_sort; thr. Qed.
  Lemma c_std_equal p (a b : list T) : comes E any (std_equal p a b).
  Proof. revert b; induction a as [|x a IH]; intros [|y b]; cbn [std_equal]; thr; apply IH. Qed.
  Context (HI : E InvalidArgument).
  Lemma c_double (s : Serie T) i : comes E any (get_double s i).
  Proof. unfold get_double; thr. Qed.
  Lemma c_scalar (s : Serie T) i : comes E any (scalar s i).
  Proof. unfold scalar; thr. Qed.
  Lemma c_set_array (s : Serie T) i v : comes E (fun r => itemSize_ r = itemSize_ s) (set_array s i v).
  Proof.
    unfold set_array. destruct (count_ s <=? i); [exact HI|]. destruct (negb _); [exact HI|]. unfold write_item. apply comes_bind0; [thr|]. intros d; reflexivity.
  Qed.
  Lemma c_set_double (s : Serie T) i x : comes E (fun r => itemSize_ r = itemSize_ s) (set_double s i x).
  Proof. unfold set_double. destruct (len (s_ s) <=? i); [exact HI|]. apply comes_bind0; [thr|]. intros d; reflexivity. Qed.
  Lemma c_set_array0 (s : Serie T) i v : comes E any (set_array s i v).
  Proof. eapply comes_any, c_set_array. Qed.
  Lemma c_set_double0 (s : Serie T) i x : comes E any (set_double s i x).
  Proof. eapply comes_any, c_set_double. Qed.
  Lemma c_setValue (s : Serie T) i v : comes E any (setValue s i v).
  Proof. unfold setValue; thr; apply c_write. Qed.
  Lemma c_setScalar (s : Serie T) i x : comes E any (setScalar s i x).
  Proof. unfold setScalar; thr. Qed.
  Lemma c_count (ss : list (Serie T)) : comes E any (countAndCheck ss).
  Proof. unfold countAndCheck; thr. Qed.
End Access.

Lemma natural_s32 {T} (s : Serie T) : natural s -> s32 (itemSize s) = itemSize_ s.
Proof.
  intros [H0 H1]; unfold itemSize, s32, u32, two31, two32. rewrite (Z.mod_small (itemSize_ s)) by lia. rewrite Z.mod_small by lia. lia.
Qed.

Ltac thr1 :=
  thr;
  try match goal with
  | |- comes _ _ (n_to_u32 _) => apply c_u32
  | |- comes _ _ (n_to_u64 _) => apply c_u64
  | |- comes _ _ (serie_of _ _ _) => apply c_of
  | |- comes _ _ (get_double _ _) => apply c_double
  | |- comes _ _ (scalar _ _) => apply c_scalar
  | |- comes _ _ (get_array _ _) => apply c_array
  | |- comes _ _ (value _ _) => apply c_value
  | |- comes _ _ (set_array _ _ _) => apply c_set_array0
  | |- comes _ _ (set_double _ _ _) => apply c_set_double0
  | |- comes _ _ (setValue _ _ _) => apply c_setValue
  | |- comes _ _ (setScalar _ _ _) => apply c_setScalar
  | |- comes _ _ (countAndCheck _) => apply c_count
  | |- comes _ _ (std_sort _ _ _) => apply c_sort
  | |- comes _ _ (std_equal _ _ _) => apply c_std_equal
  | |- comes _ _ (upd_each _ _ _) => eapply comes_any, c_each; intros ? ?
  end; auto.
Ltac go := repeat (progress thr1).

(** ** map, filter and the other functions with a callback *)
Section Callbacks.
  Context {T : Type} {NT : Num T} {St : Type} (E : exn -> Prop).

  Lemma c_map_num {A} (get : Z -> outcome A) (cb : A -> Z -> M St T) n :
    (forall i, comes E any (get i)) -> (forall x i, comesM E any (cb x i)) -> comesM E (fun r => itemSize_ r = 1) (map_num get cb n).
  Proof.
    intros Hg Hc; unfold map_num, each. apply comesM_bind0; [go; auto|]. intros r; apply comesM_lift, c_of_size.
  Qed.
  Lemma c_map_arr {A} (get : Z -> outcome A) (cb : A -> Z -> M St (list T)) n :
    E RuntimeError -> (forall i, comes E any (get i)) -> (forall x i, comesM E any (cb x i)) -> comesM E any (map_arr get cb n).
  Proof. intros HR Hg Hc; unfold map_arr; go; auto. Qed.
  (** results of one length: no exception of [map] *)
  Lemma c_map_same {A} (P : A -> Prop) K (get : Z -> outcome A) (cb : A -> Z -> M St (list T)) n :
    (forall i, comes E P (get i)) -> (forall x i, P x -> comesM E (fun r => len r = K) (cb x i)) -> comesM E any (map_arr get cb n).
  Proof.
    intros Hg Hc; unfold map_arr. destruct (n =? 0); [go|]. apply (comesM_bind E P); [apply comesM_lift, Hg|intros x0 Hx0].
    apply (comesM_bind E (fun r => len r = K)); [apply Hc, Hx0|intros first Hf]. apply comesM_bind0; [|intros fl; go].
    apply comesM_foldM0; intros a i. apply (comesM_bind E P); [apply comesM_lift, Hg|intros x Hx]. apply (comesM_bind E (fun r => len r = K)); [apply Hc, Hx|intros r Hr].
    rewrite Hr, Hf, Z.eqb_refl; cbn [negb]. go.
  Qed.
  Lemma c_map_vv (s : Serie T) K (cb : list T -> Z -> M St (list T)) :
    natural s -> (forall v i, len v = itemSize_ s -> comesM E (fun r => len r = K) (cb v i)) -> comesM E any (map_vv cb s).
  Proof. intros Hs Hc; unfold map_vv. apply c_map_same with (P := fun v => len v = itemSize_ s) (K := K); [intros i; apply c_array_len, Hs|exact Hc]. Qed.
  Lemma c_get_all (ss : list (Serie T)) i : Forall natural ss -> comes E any (get_all ss i).
  Proof. intros H; rewrite Forall_forall in H; unfold get_all; go. Qed.
End Callbacks.

Section Widen.
  Context (C E : exn -> Prop) (HC : forall e, C e -> E e).
  Lemma widenM {St A} (m : M St A) : throwsM C m -> comesM E any m.
  Proof. intros H st. specialize (H st). destruct (fst (m st)) as [a|e|]; [exact I|apply HC, H; reflexivity|exact I]. Qed.
End Widen.

Section Loops.
  Context {T : Type} {NT : Num T} {St : Type} (E : exn -> Prop) (HI : E InvalidArgument).
  Lemma c_collect {A} (get : Z -> outcome A) (cb : A -> Z -> M St bool) w n : (forall i, comes E any (get i)) -> (forall x i, comesM E any (cb x i)) -> comesM E any (collect get cb w n).
  Proof. intros Hg Hc; unfold collect; go; auto. Qed.
  Lemma c_collect2 {A} (get : Z -> outcome A) (cb : A -> Z -> M St bool) n : (forall i, comes E any (get i)) -> (forall x i, comesM E any (cb x i)) -> comesM E any (collect2 get cb n).
  Proof. intros Hg Hc; unfold collect2; go; auto. Qed.
  Lemma c_each_call {A B} (get : Z -> outcome A) (cb : A -> Z -> M St B) n : (forall i, comes E any (get i)) -> (forall x i, comesM E any (cb x i)) -> comesM E any (each get cb n).
  Proof. intros Hg Hc; unfold each; go; auto. Qed.
  Lemma c_find {A} (get : Z -> outcome A) (cb : A -> Z -> M St bool) d l : (forall i, comes E any (get i)) -> (forall x i, comesM E any (cb x i)) -> comesM E any (find_loop get cb d l).
  Proof. intros Hg Hc; induction l as [|i l IH]; cbn [find_loop]; go; auto. Qed.
  Lemma c_take_s (s : Serie T) l : comes E any (take_s s l).
  Proof. unfold take_s, copy_s; go. Qed.
  Lemma c_take_v (s : Serie T) l : natural s -> comes E any (take_v s l).
  Proof. intros Hs; unfold take_v, copy_v; go. Qed.
  Lemma c_take_any (s : Serie T) l : natural s -> comes E any (take_any s l).
  Proof. intros Hs; unfold take_any, copy_s, copy_v; go. Qed.
End Loops.

Section Theorems.
  Context {T : Type} {NT : Num T} {St : Type} (C : exn -> Prop).
  (** the callback throws exceptions of [C] only; no exception beside these and those given *)
  Theorem C164_callbacks :
    forall (s : Serie T) (ss : list (Serie T)), natural s -> Forall natural ss ->
    (forall cb : T -> Z -> M St T, (forall x i, throwsM C (cb x i)) -> throwsM (either C invalid) (map_ss cb s)) /\
    (forall cb : list T -> Z -> M St T, (forall x i, throwsM C (cb x i)) -> throwsM C (map_vs cb s)) /\
    (forall cb : T -> Z -> M St (list T), (forall x i, throwsM C (cb x i)) -> throwsM (either C (either invalid runtime)) (map_sv cb s)) /\
    (forall cb : list T -> Z -> M St (list T), (forall x i, throwsM C (cb x i)) -> throwsM (either C runtime) (map_vv cb s)) /\
    (forall cb : list (list T) -> Z -> M St T, (forall x i, throwsM C (cb x i)) -> throwsM (either C invalid) (map_n_s cb ss)) /\
    (forall cb : list (list T) -> Z -> M St (list T), (forall x i, throwsM C (cb x i)) -> throwsM (either C (either invalid runtime)) (map_n_v cb ss)) /\
    (forall cb : T -> Z -> M St bool, (forall x i, throwsM C (cb x i)) ->
       throwsM (either C invalid) (filter_s cb s) /\ throwsM (either C invalid) (reject_s cb s) /\ throwsM (either C invalid) (findAll_s cb s) /\
       throwsM (either C invalid) (find_s cb s) /\ throwsM (either C invalid) (partition_s cb s) /\ throwsM (either C invalid) (check_s s cb)) /\
    (forall cb : list T -> Z -> M St bool, (forall x i, throwsM C (cb x i)) ->
       throwsM (either C invalid) (filter_v cb s) /\ throwsM (either C invalid) (reject_v cb s) /\ throwsM (either C invalid) (findAll_v cb s) /\
       throwsM (either C invalid) (find_v cb s) /\ throwsM (either C invalid) (partition_v cb s) /\ throwsM C (check_v s cb)) /\
    (forall cb : list (list T) -> Z -> M St bool, (forall x i, throwsM C (cb x i)) ->
       throwsM (either C invalid) (filter_n cb ss) /\ throwsM (either C invalid) (reject_n cb ss)) /\
    (forall cb : list (list T) -> M St bool, (forall x, throwsM C (cb x)) ->
       throwsM (either C invalid) (filterAll cb ss) /\ throwsM (either C invalid) (rejectAll cb ss)) /\
    (forall (cb : T -> Z -> M St unit) (cbv : list T -> Z -> M St unit) (cbn : list (list T) -> Z -> M St unit),
       (forall x i, throwsM C (cb x i)) -> (forall x i, throwsM C (cbv x i)) -> (forall x i, throwsM C (cbn x i)) ->
       throwsM (either C invalid) (forEach_s cb s) /\ throwsM (either C invalid) (forEach_v cbv s) /\ throwsM (either C invalid) (forEach_auto cb cbv s) /\
       throwsM (either C invalid) (forEach_n cbn ss)) /\
    (forall (cb : T -> T -> Z -> M St T) x0, (forall a x i, throwsM C (cb a x i)) -> throwsM (either C invalid) (reduce_s cb s x0)) /\
    (forall (cb : list T -> list T -> Z -> M St (list T)) x0, (forall a x i, throwsM C (cb a x i)) -> throwsM C (reduce_v cb s x0)) /\
    (forall draw n k, throwsM C draw -> throwsM (either C invalid) (random (St := St) draw n k)).
  Proof.
    intros s ss Hs Hss.
    assert (Wi : forall e, C e -> either C invalid e) by (unfold either; auto).
    assert (Wr : forall e, C e -> either C runtime e) by (unfold either; auto).
    assert (Wb : forall e, C e -> either C (either invalid runtime) e) by (unfold either; auto).
    assert (Ii : either C invalid InvalidArgument) by (right; reflexivity).
    assert (Ib : either C (either invalid runtime) InvalidArgument) by (right; left; reflexivity).
    assert (Rr : either C runtime RuntimeError) by (right; reflexivity).
    assert (Rb : either C (either invalid runtime) RuntimeError) by (right; right; reflexivity).
    assert (Ga : forall E i, comes E any (get_array s i)) by (intros; apply c_array, Hs).
    assert (Gn : forall E i, comes E any (get_all ss i)) by (intros; apply c_get_all, Hss).
    repeat apply conj.
    - intros cb H; apply comesM_throws with (P := fun r => itemSize_ r = 1); unfold map_ss. apply c_map_num; intros; [apply c_double; assumption|eapply widenM; eauto].
    - intros cb H; apply comesM_throws with (P := fun r => itemSize_ r = 1); unfold map_vs. apply c_map_num; intros; [auto|eapply widenM; eauto].
    - intros cb H; apply comesM_throws with (P := any); unfold map_sv. apply c_map_arr; intros; [assumption|apply c_double; assumption|eapply widenM; eauto].
    - intros cb H; apply comesM_throws with (P := any); unfold map_vv. apply c_map_arr; intros; [assumption|auto|eapply widenM; eauto].
    - intros cb H; apply comesM_throws with (P := any); unfold map_n_s. go; try (eapply widenM; eauto; fail); auto.
    - intros cb H; apply comesM_throws with (P := any); unfold map_n_v. go; try (eapply widenM; eauto; fail); auto.
    - intros cb H. assert (W : forall x i, comesM (either C invalid) any (cb x i)) by (intros; eapply widenM; eauto). repeat apply conj.
      + apply comesM_throws with (P := any); unfold filter_s; apply comesM_bind0; [apply c_collect; intros; [apply c_double; assumption|auto]|intros l; apply comesM_lift, c_take_s; assumption].
      + apply comesM_throws with (P := any); unfold reject_s; apply comesM_bind0; [apply c_collect; intros; [apply c_double; assumption|auto]|intros l; apply comesM_lift, c_take_s; assumption].
      + apply comesM_throws with (P := any); unfold findAll_s; apply comesM_bind0; [apply c_collect; intros; [apply c_double; assumption|auto]|intros l; apply comesM_lift, c_take_any; assumption].
      + apply comesM_throws with (P := any); unfold find_s; go. apply c_find; intros; [apply c_double; assumption|auto].
      + apply comesM_throws with (P := any); unfold partition_s; go; try (apply c_take_s; assumption). apply c_collect2; intros; [apply c_double; assumption|auto].
      + apply comesM_throws with (P := fun r => itemSize_ r = 1); unfold check_s; apply c_map_num; intros; [apply c_double; assumption|go; auto].
    - intros cb H. assert (W : forall x i, comesM (either C invalid) any (cb x i)) by (intros; eapply widenM; eauto).
      assert (W' : forall x i, comesM C any (cb x i)) by (intros; eapply widenM; eauto). repeat apply conj.
      + apply comesM_throws with (P := any); unfold filter_v; apply comesM_bind0; [apply c_collect; intros; auto|intros l; apply comesM_lift, c_take_v; assumption].
      + apply comesM_throws with (P := any); unfold reject_v; apply comesM_bind0; [apply c_collect; intros; auto|intros l; apply comesM_lift, c_take_v; assumption].
      + apply comesM_throws with (P := any); unfold findAll_v; apply comesM_bind0; [apply c_collect; intros; auto|intros l; apply comesM_lift, c_take_any; assumption].
      + apply comesM_throws with (P := any); unfold find_v; go. apply c_find; intros; auto.
      + apply comesM_throws with (P := any); unfold partition_v; go; try (apply c_take_v; assumption). apply c_collect2; intros; auto.
      + apply comesM_throws with (P := fun r => itemSize_ r = 1); unfold check_v; apply c_map_num; intros; [auto|go; auto].
    - intros cb H. assert (W : forall x i, comesM (either C invalid) any (cb x i)) by (intros; eapply widenM; eauto). rewrite Forall_forall in Hss.
      split; apply comesM_throws with (P := any); [unfold filter_n|unfold reject_n]; go; try (apply c_take_v; auto); apply c_collect; auto.
    - intros cb H. assert (W : forall x, comesM (either C invalid) any (cb x)) by (intros; eapply widenM; eauto). rewrite Forall_forall in Hss.
      split; apply comesM_throws with (P := any); [unfold filterAll|unfold rejectAll]; go; try (apply c_take_v; auto); apply c_collect; auto.
    - intros cb cbv cbn H Hv Hn. assert (W : forall x i, comesM (either C invalid) any (cb x i)) by (intros; eapply widenM; eauto).
      assert (Wv : forall x i, comesM (either C invalid) any (cbv x i)) by (intros; eapply widenM; eauto). assert (Wn : forall x i, comesM (either C invalid) any (cbn x i)) by (intros; eapply widenM; eauto).
      repeat apply conj; apply comesM_throws with (P := any); [unfold forEach_s|unfold forEach_v|unfold forEach_auto|unfold forEach_n]; go; apply c_each_call; auto; intros; apply c_double; assumption.
    - intros cb x0 H; apply comesM_throws with (P := any); unfold reduce_s; go; eapply widenM; eauto.
    - intros cb x0 H; apply comesM_throws with (P := any); unfold reduce_v; go; auto; eapply widenM; eauto.
    - intros draw n k H; apply comesM_throws with (P := any); unfold random; go; eapply widenM; eauto.
  Qed.
  Theorem C164_chains : forall {D} (f g : D -> M St D) (fs : list (D -> M St D)), (forall x, throwsM C (f x)) -> (forall x, throwsM C (g x)) -> Forall (fun h => forall x, throwsM C (h x)) fs ->
    (forall x, throwsM C (pipe x (f :: fs))) /\ (forall x, throwsM C (compose (f :: g :: fs) x)).
  Proof.
    intros D f g fs Hf Hg Hfs.
    assert (P : forall (fs : list (D -> M St D)) f, (forall x, throwsM C (f x)) -> Forall (fun h => forall x, throwsM C (h x)) fs -> forall x, throwsM C (pipe x (f :: fs))).
    { clear; intros fs; induction fs as [|h fs IH]; intros f Hf Hfs x; [exact (Hf x)|]. inversion Hfs; subst.
      change (throwsM C (mbind (f x) (fun y => pipe y (h :: fs)))). apply comesM_throws with (P := any). apply comesM_bind0; [apply throwsM_comes, Hf|intros y; apply throwsM_comes, IH; assumption]. }
    assert (Q : forall (fs : list (D -> M St D)) f, (forall x, throwsM C (f x)) -> Forall (fun h => forall x, throwsM C (h x)) fs -> forall x, throwsM C (compose_from f fs x)).
    { clear; intros fs; induction fs as [|h fs IH]; intros f Hf Hfs x; [exact (Hf x)|]. inversion Hfs; subst. cbn [compose_from]. unfold compose2.
      apply comesM_throws with (P := any). apply comesM_bind0; [apply throwsM_comes, IH; assumption|intros y; apply throwsM_comes, Hf]. }
    split; [apply P; assumption|intros x; apply (Q (g :: fs) f Hf); constructor; assumption].
  Qed.
End Theorems.

(** ** the functions without a callback *)
Section Plain.
  Context {T : Type} {NT : Num T} (E : exn -> Prop).
  Lemma row_each (s : Serie T) n f (v : list T) : len v = itemSize_ s -> (forall k x, comes E any (f k x)) -> comes E (fun r => len r = itemSize_ s) (upd_each n f v).
  Proof. intros Hv Hf; eapply comes_mono; [|apply c_each, Hf]. cbn beta; intros; congruence. Qed.
  Lemma c_negate (s : Serie T) : natural s -> comes E any (negate s).
  Proof. intros Hs; unfold negate. apply comes_run, (c_map_vv E s (itemSize_ s)); [exact Hs|]. intros v i Hv; apply comesM_lift, row_each; [exact Hv|intros; go]. Qed.
  Lemma c_scale (s : Serie T) x : natural s -> comes E any (scale s x).
  Proof. intros Hs; unfold scale. apply comes_run, (c_map_vv E s (itemSize_ s)); [exact Hs|]. intros v i Hv; apply comesM_lift, row_each; [exact Hv|intros; go]. Qed.
  Lemma c_mult (s : Serie T) x : natural s -> comes E any (mult s x).
  Proof. intros Hs; unfold mult. apply comes_run, (c_map_vv E s (itemSize_ s)); [exact Hs|]. intros v i Hv; apply comesM_lift, row_each; [exact Hv|intros; go]. Qed.
  Lemma c_div_value (s : Serie T) x : natural s -> comes E any (div_value x s).
  Proof. intros Hs; unfold div_value. apply comes_run, (c_map_vv E s (itemSize_ s)); [exact Hs|]. intros v i Hv; apply comesM_lift, row_each; [exact Hv|intros; go]. Qed.
  Lemma c_dot_item k (a b : list T) : comes E (fun r => len r = 1) (dot_item k a b).
  Proof.
    unfold dot_item. apply comes_foldO; [reflexivity|]. intros r j Hr. apply comes_bind0; [go|intros x]. apply comes_bind0; [go|intros y]. apply comes_bind0; [go|intros z].
    eapply comes_mono; [|apply comes_wr]. cbn beta; intros; congruence.
  Qed.
  Lemma c_dot (a b : Serie T) : natural a -> natural b -> comes E any (dot a b).
  Proof. intros Ha Hb; unfold dot. apply comes_run, (c_map_vv E a 1); [exact Ha|]. intros v i Hv; apply comesM_lift, comes_bind0; [go|intros bb; apply c_dot_item]. Qed.
  Lemma c_dot_array (a : Serie T) b : natural a -> comes E any (dot_array a b).
  Proof. intros Ha; unfold dot_array. go. apply (c_map_vv E a 1); [exact Ha|]. intros v i Hv; apply comesM_lift, c_dot_item. Qed.
  Lemma c_insar (u : Serie T) los : natural u -> comes E any (insar u los).
  Proof. intros Hu; unfold insar; go; apply c_dot_array, Hu. Qed.
  Lemma c_fringes (s : Serie T) x : natural s -> comes E any (fringes s x).
  Proof. intros Hs; unfold fringes; go. apply (c_map_vv E s 1); [exact Hs|]. intros v i Hv; apply comesM_lift, comes_bind0; [go|intros y; reflexivity]. Qed.
  Lemma c_norm2 (s : Serie T) : natural s -> comes E natural (norm2 s).
  Proof.
    intros Hs; unfold norm2. destruct (negb (isValid s)); [split; cbn; lia|]. destruct (itemSize s =? 1).
    - unfold clone. eapply comes_mono; [|apply c_of_size]. intros r Hr; unfold natural; rewrite Hr; exact Hs.
    - apply comes_bind0; [go|intros d]. eapply comes_mono; [|apply c_of_size]. intros r Hr; unfold natural; rewrite Hr; lia.
  Qed.
  Lemma c_norm (s : Serie T) : natural s -> comes E any (norm s).
  Proof.
    intros Hs; unfold norm. apply (comes_bind E natural); [apply c_norm2, Hs|intros n2 Hn]. apply comes_run, (c_map_vv E n2 1); [exact Hn|].
    intros v i Hv; apply comesM_lift, comes_bind0; [go|intros y; reflexivity].
  Qed.
  Lemma c_vertex (p : Serie T) t k : natural p -> comes E any (vertex p t k).
  Proof. intros Hp; unfold vertex; go. Qed.
  Lemma c_normals (p i : Serie T) : natural p -> natural i -> comes E natural (normals p i).
  Proof.
    intros Hp Hi; unfold normals. destruct (negb (isValid p) || negb (isValid i)); [split; cbn; lia|]. destruct (negb (itemSize p =? 3) || negb (itemSize i =? 3)) eqn:X; [split; cbn; lia|].
    assert (K : itemSize i = 3) by lia.
    assert (G : comesM E any (forEach_v (normal_step p) i)).
    { unfold forEach_v; rewrite K; cbn [Z.eqb Pos.eqb]. apply comesM_bind0; [|intros ?; go]. apply c_each_call; [intros; apply c_array, Hi|]. intros t j [d k]; unfold normal_step.
      match goal with |- comes _ _ (fst (match ?o with _ => _ end)) => assert (Q : comes E any o) by (unfold create, geo_cross; go; apply c_vertex, Hp); destruct o; exact Q end. }
    specialize (G (createArray (u32 (count i * 3)) (n_of_Z 0), 0)). destruct (forEach_v _ _ _) as [r [d k]]; cbn [fst] in G. apply comes_bind0; [exact G|intros _]. eapply comes_mono; [|apply c_of_size]. intros r' Hr'; unfold natural; rewrite Hr'; lia.
  Qed.

  Lemma c_inv (s : Serie T) : E RuntimeError -> natural s -> comes E any (inv s).
  Proof.
    intros HR Hs; unfold inv; go; unfold map_vv; (apply c_map_arr; [exact HR|intros; apply c_array, Hs|intros v i]); [unfold inv6_item|unfold inv9_item]; go.
  Qed.
End Plain.

Section PlainEigen.
  Context {T : Type} {NT : Num T} (E : exn -> Prop).
  Lemma c_pair n x (st : @jacobi_state T) l m : comes E any (pair_step n x st l m).
  Proof. unfold pair_step, rot_step; go. Qed.
  Lemma c_sweeps n b k : forall d (st : @jacobi_state T), comes E any (sweeps n b k d st).
  Proof. induction k as [|k IH]; intros d st; cbn [sweeps]; [go|]. unfold sweep. go; try apply c_pair. Qed.
  Lemma c_symmetric n (m : list T) : comes E any (symmetricEigen n m).
  Proof. unfold symmetricEigen, jacobi, off_norm, sort_eigen, sort_step. go; try apply c_sweeps. Qed.
  Lemma c_eigen2 (m : list T) : comes E any (eigen2 m).
  Proof. unfold eigen2, load2; go; apply c_symmetric. Qed.
  Lemma c_eigen3 (m : list T) : comes E any (eigen3 m).
  Proof. unfold eigen3, load3; go; apply c_symmetric. Qed.
  Lemma c_eigenValues (s : Serie T) : E RuntimeError -> natural s -> comes E any (eigenValues s).
  Proof.
    intros HR Hs; unfold eigenValues; go; unfold map_vv; (apply c_map_arr; [exact HR|intros; apply c_array, Hs|intros v i]); go; first [apply c_eigen2|apply c_eigen3].
  Qed.
  Lemma c_eigenVectors (s : Serie T) : E RuntimeError -> natural s -> comes E any (eigenVectors s).
  Proof.
    intros HR Hs; unfold eigenVectors; go; unfold map_vv; (apply c_map_arr; [exact HR|intros; apply c_array, Hs|intros v i]); go; first [apply c_eigen2|apply c_eigen3].
  Qed.
  Lemma c_eigenSystem (s : Serie T) : E InvalidArgument -> E RuntimeError -> natural s -> comes E any (eigenSystem s).
  Proof. intros HI HR Hs; unfold eigenSystem, eigen_fill; go; first [apply c_eigen2|apply c_eigen3]. Qed.
End PlainEigen.

Section PlainInvalid.
  Context {T : Type} {NT : Num T} (E : exn -> Prop) (HI : E InvalidArgument).
  Lemma c_pointwise op (a b : Serie T) : natural a -> natural b -> comes E natural (pointwise op a b).
  Proof.
    intros Ha Hb; unfold pointwise. destruct (negb _ || negb _); [exact HI|]. apply comes_foldO; [unfold natural; cbn [serie_n itemSize_]; rewrite natural_s32 by exact Ha; exact Ha|].
    intros r i Hr. destruct (itemSize a =? 1).
    - apply comes_bind0; [go|intros x]. apply comes_bind0; [go|intros y]. eapply comes_mono; [|apply c_set_double, HI]. intros r' Hr'; unfold natural; rewrite Hr'; exact Hr.
    - apply comes_bind0; [go|intros x]. apply comes_bind0; [go|intros y]. apply comes_bind0; [go|intros z]. eapply comes_mono; [|apply c_set_array, HI]. intros r' Hr'; unfold natural; rewrite Hr'; exact Hr.
  Qed.
  Lemma c_pointwise_list op (ss : list (Serie T)) : Forall natural ss -> comes E any (pointwise_list op ss).
  Proof.
    intros Hs; unfold pointwise_list. destruct ss as [|s r]; [go|]. destruct (forallb _ r); [|exact HI]. rewrite Forall_forall in Hs.
    apply comes_run, (c_map_vv E s (itemSize_ s)); [apply Hs; left; reflexivity|]. intros v i Hv. apply comesM_lift, comes_foldO_in; [exact Hv|]. intros a x Hx Ha. apply row_each; [exact Ha|intros; go; apply Hs; right; exact Hx].
  Qed.
  Lemma c_shift op (s : Serie T) x : comes E (fun r => itemSize_ r = 1) (shift op s x).
  Proof. unfold shift. destruct (negb _); [exact HI|]. apply comes_run. unfold map_ss. apply c_map_num; intros; go. Qed.
  Lemma c_variadic (ss : list (Serie T)) f : (forall a b, natural a -> natural b -> comes E natural (f a b)) -> Forall natural ss ->
    comes E natural (foldO (fun result s => let* r := f result s in Ok (serie_assign result r)) ss (serie_n (s32 (itemSize (hd serie_default ss))) (count (hd serie_default ss)) 3)).
  Proof.
    intros Hf Hs. rewrite Forall_forall in Hs. apply comes_foldO_in.
    - unfold natural; cbn [serie_n itemSize_]. destruct ss as [|s r]; [split; reflexivity || (cbn; lia)|]. cbn [hd]. rewrite natural_s32; apply Hs; left; reflexivity.
    - intros a x Hx Ha. apply (comes_bind E natural); [apply Hf; [exact Ha|apply Hs, Hx]|]. intros r Hr; exact Hr.
  Qed.
  Lemma c_add_variadic (ss : list (Serie T)) : Forall natural ss -> comes E any (add_variadic ss).
  Proof.
    intros Hs; unfold add_variadic. assert (V := c_variadic ss add ltac:(intros; apply c_pointwise; assumption) Hs).
    destruct ss as [|a [|b [|c r]]]; [exact HI| | |].
    - cbn [hd] in V. apply comes_bind0; [apply c_count, HI|intros _]. eapply comes_any, V.
    - inversion Hs as [|? ? Ha Hs']; inversion Hs'; subst. eapply comes_any, c_pointwise; assumption.
    - cbn [hd] in V. apply comes_bind0; [apply c_count, HI|intros _]. eapply comes_any, V.
  Qed.
  Lemma c_add_of_sub (ss : list (Serie T)) : Forall natural ss -> comes E any (add_of_sub_h ss).
  Proof.
    intros Hs; unfold add_of_sub_h. assert (V := c_variadic ss sub ltac:(intros; apply c_pointwise; assumption) Hs).
    destruct ss as [|a r]; [exact HI|]. cbn [hd] in V. apply comes_bind0; [apply c_count, HI|intros _]. eapply comes_any, V.
  Qed.
  Lemma c_scale_array (s : Serie T) l : natural s -> comes E any (scale_array s l).
  Proof. intros Hs; unfold scale_array. destruct (negb _); [exact HI|]. apply comes_run, (c_map_vv E s (itemSize_ s)); [exact Hs|]. intros v i Hv; apply comesM_lift, row_each; [exact Hv|intros; go]. Qed.
  Lemma c_mult_serie (s m : Serie T) : natural s -> natural m -> comes E any (mult_serie s m).
  Proof.
    intros Hs Hm; unfold mult_serie. destruct (negb _); [exact HI|]. destruct (itemSize s =? 1); [go|]. apply comes_run, (c_map_vv E s (itemSize_ s)); [exact Hs|]. intros v i Hv.
    destruct (itemSize m =? 1); [apply comesM_lift, comes_bind0; [go|intros d; apply row_each; [exact Hv|intros; go]]|]. destruct (negb _); [apply comesM_throw, HI|].
    apply comesM_lift, comes_bind0; [go|intros d; apply row_each; [exact Hv|intros; go]].
  Qed.
  Lemma c_div_serie (d s : Serie T) : natural s -> comes E any (div_serie d s).
  Proof.
    intros Hs; unfold div_serie. repeat match goal with |- comes _ _ (if negb _ then _ else _) => destruct (negb _); [exact HI|] | |- comes _ _ (if negb _ || _ then _ else _) => destruct (negb _ || _); [exact HI|] end.
    destruct (itemSize s =? 1).
    - apply comes_run. eapply comesM_mono; [|unfold map_ss; apply c_map_num; intros; go]. auto.
    - apply comes_run, (c_map_vv E s (itemSize_ s)); [exact Hs|]. intros v i Hv. assert (R : len (replicate (len v) (n0 (T := T))) = itemSize_ s) by (rewrite len_replicate; pose proof (len_nonneg v); lia).
      apply comesM_bind0; [go|intros w]. destruct (n_ltb _ _); [apply comesM_ret, R|apply comesM_lift, row_each; [exact R|intros; go]].
  Qed.
  Lemma c_weighted (ss : list (Serie T)) ws : Forall natural ss -> comes E any (weigthedSum ss ws).
  Proof.
    intros Hs; unfold weigthedSum. destruct (negb _); [exact HI|]. destruct ss as [|s r]; [go|]. destruct (forallb _ _); [|exact HI]. 
    apply comes_run, (c_map_vv E s (itemSize s)); [inversion Hs; assumption|]. intros v i Hv.
    assert (R : len (createArray (itemSize s) (n0 (T := T))) = itemSize s) by (unfold createArray; rewrite len_replicate; unfold itemSize, u32; pose proof (Z.mod_pos_bound (itemSize_ s) two32 ltac:(reflexivity)); lia).
    apply comesM_lift, comes_foldO; [exact R|]. intros a j Ha. apply (comes_bind E natural).
    - eapply comes_mono; [|apply comes_rd_in]. intros x Hx; rewrite Forall_forall in Hs; apply Hs, Hx.
    - intros x Hx. apply comes_bind0; [go|intros sv]. apply comes_bind0; [go|intros w]. eapply comes_mono; [|apply c_each; intros; go]. cbn beta; intros; congruence.
  Qed.
End PlainInvalid.

Section PlainInvalid2.
  Context {T : Type} {NT : Num T} (E : exn -> Prop) (HI : E InvalidArgument).
  Lemma c_minMax (s : Serie T) : natural s -> comes E any (minMax s).
  Proof. intros Hs; unfold minMax; go. Qed.
  Lemma c_normalize (s : Serie T) : natural s -> comes E any (normalize s).
  Proof.
    intros Hs; unfold normalize. destruct (negb _); [exact HI|]. destruct (itemSize s =? 1).
    - apply comes_bind0; [apply c_minMax, Hs|intros mm]. apply comes_bind0; [go|intros mx]. apply comes_bind0; [go|intros mn].
      apply comes_run. eapply comesM_mono; [|unfold map_ss; apply c_map_num; intros; go]. auto.
    - apply comes_run, (c_map_vv E s (itemSize_ s)); [exact Hs|]. intros v i Hv; apply comesM_ret. unfold len in *; rewrite map_length; exact Hv.
  Qed.
  Lemma c_mask p (a b : Serie T) : natural a -> natural b -> comes E any (mask p a b).
  Proof. intros Ha Hb; unfold mask; go. Qed.
  Lemma c_cross (a b : Serie T) : natural a -> natural b -> comes E any (cross a b).
  Proof.
    intros Ha Hb; unfold cross. do 4 (destruct (negb _); [exact HI|]). apply comes_run, (c_map_vv E a 3); [exact Ha|]. intros v i Hv. unfold cross_item. apply comesM_lift.
    repeat (apply comes_bind0; [go|intros ?]). reflexivity.
  Qed.
  Lemma c_at (m : matrix T) i j : comes E any (m_at m i j).
  Proof. unfold m_at, m_view; go. Qed.
  Lemma c_indexS i j m : comes E any (indexS i j m).
  Proof. unfold indexS; go. Qed.
  Lemma c_squared (v : list T) : comes E any (squaredMatrix v).
  Proof. unfold squaredMatrix; go. Qed.
  Lemma c_symSquared (v : list T) : comes E any (symSquaredMatrix v).
  Proof. unfold symSquaredMatrix; go; apply c_indexS. Qed.
  Lemma c_det (s : Serie T) : natural s -> comes E any (det s).
  Proof.
    intros Hs; unfold det. destruct (negb _); [exact HI|]. apply comes_run, (c_map_vv E s 1); [exact Hs|]. intros v i Hv. apply comesM_lift. unfold det_item.
    destruct (_ && _); [|destruct (_ && _); [|exact HI]]; (apply comes_bind0; [destruct (_ =? _); [apply c_symSquared|apply c_squared]|intros m]; repeat (apply comes_bind0; [apply c_at|intros ?]); reflexivity).
  Qed.
  Lemma c_transpose (s : Serie T) : natural s -> comes E any (transpose s).
  Proof.
    intros Hs; unfold transpose. destruct (negb _ && negb _); [exact HI|]. destruct (itemSize s =? 4); apply comes_run; [apply (c_map_vv E s 4)|apply (c_map_vv E s 9)]; try exact Hs; intros v i Hv; apply comesM_lift;
      [unfold transpose4_item|unfold transpose9_item]; repeat (apply comes_bind0; [go|intros ?]); reflexivity.
  Qed.
  Lemma c_mean (s : Serie T) : natural s -> comes E any (mean s).
  Proof.
    intros Hs; unfold mean. destruct (itemSize s =? 1); [unfold reduce_s; go|].
    assert (G : comesM E any (forEach_v accumulate s)).
    { unfold forEach_v. destruct (itemSize s =? 1); [go|]. apply comesM_bind0; [|intros ?; go]. apply c_each_call; [intros; apply c_array, Hs|]. intros a i b; unfold accumulate.
      match goal with |- comes _ _ (fst (match ?o with _ => _ end)) => assert (Q : comes E any o) by go; destruct o; exact Q end. }
    specialize (G (createArray (itemSize s) (n_of_Z 0))). destruct (forEach_v _ _ _) as [r b]; cbn [fst] in G. apply comes_bind0; [exact G|intros; go].
  Qed.
  Lemma c_covariance (x y : Serie T) : natural x -> natural y -> comes E any (covariance x y).
  Proof.
    intros Hx Hy; unfold covariance. do 3 (destruct (negb _); [exact HI|]). apply comes_bind0; [apply c_mean, Hx|intros mx]. apply comes_bind0; [unfold number; go|intros xb].
    apply comes_bind0; [apply c_mean, Hy|intros my]. apply comes_bind0; [unfold number; go|intros yb]. apply (comes_bind E (fun r => itemSize_ r = 1)); [apply c_shift, HI|intros dx Dx].
    apply (comes_bind E (fun r => itemSize_ r = 1)); [apply c_shift, HI|intros dy Dy]. apply comes_bind0; [apply c_mult_serie; [exact HI| |]; unfold natural; rewrite ?Dx, ?Dy; lia|intros p].
    unfold reduce_s; go.
  Qed.
  Lemma c_bins_between (s : Serie T) nb a b : comes E any (bins_between s nb a b).
  Proof.
    unfold bins_between. destruct (negb _); [exact HI|]. destruct (nb <? 1); [go|].
    assert (G : comesM E any (forEach_s (put_in_bin nb a ((b [-] a) [/] n_of_Z nb)%num) s)).
    { unfold forEach_s. destruct (negb _); [go|]. apply comesM_bind0; [|intros ?; go]. apply c_each_call; [intros; apply c_double, HI|]. intros x i st; unfold put_in_bin.
      match goal with |- comes _ _ (fst (match ?o with _ => _ end)) => assert (Q : comes E any o) by go; destruct o; exact Q end. }
    specialize (G (createArray nb (n_of_Z 0))). destruct (forEach_s _ _ _) as [r l]; cbn [fst] in G. apply comes_bind0; [exact G|intros; go].
  Qed.
  Lemma c_bins (s : Serie T) nb : natural s -> comes E any (bins s nb).
  Proof. intros Hs; unfold bins. apply comes_bind0; [apply c_minMax, Hs|intros mm]. go; apply c_bins_between. Qed.
  Lemma c_sort_by sorter c (s : Serie T) : natural s -> comes E any (sort_by sorter c s).
  Proof. intros Hs; unfold sort_by; go. Qed.
  Lemma c_quantile sorter (s : Serie T) q : natural s -> comes E any (quantile sorter s q).
  Proof. intros Hs; unfold quantile, sort_default. go; apply c_sort_by, Hs. Qed.
  Lemma c_fences sorter (s : Serie T) m : natural s -> comes E any (fences sorter s m).
  Proof. intros Hs; unfold fences, q25, q75. go; apply c_quantile, Hs. Qed.
  Lemma c_areas (p i : Serie T) : natural p -> natural i -> comes E any (areas p i).
  Proof.
    intros Hp Hi; unfold areas. destruct (_ || _); [go|]. apply (comes_bind E natural); [apply c_normals; assumption|]. intros n Hn. apply comes_bind0; [apply c_norm, Hn|intros l].
    apply c_div_serie; [exact HI|split; cbn; lia].
  Qed.
  Lemma c_fill n f (s : Serie T) : (forall i j k, comes E any (f i j k)) -> comes E any (fill_grid n f s).
  Proof. intros Hf; unfold fill_grid; go; apply Hf. Qed.
  Lemma c_spacings n (f : Z -> outcome T) : (forall i, comes E any (f i)) -> comes E any (spacings n f).
  Proof. intros Hf; unfold spacings; go. Qed.
  Lemma c_from_dims n (c d : list T) : comes E any (from_dims n c d).
  Proof. unfold from_dims. do 2 (destruct (_ || _); [exact HI|]). apply comes_bind0; [apply c_spacings; intros; go|intros sp]. apply c_fill; intros; go. Qed.
  Lemma c_from_points n (c d : list T) : comes E any (from_points n c d).
  Proof. unfold from_points. do 2 (destruct (_ || _); [exact HI|]). apply comes_bind0; [apply c_spacings; intros; go|intros sp]. apply c_fill; intros; go. Qed.
  Lemma c_put_all (s : Serie T) st : natural s -> comes E any (put_next_all s st).
  Proof. intros Hs; unfold put_next_all, put_next; go. Qed.
  Lemma c_put_if (s : Serie T) i st : natural s -> comes E any (put_next_if s i st).
  Proof. intros Hs; unfold put_next_if, put_next; go. Qed.
  Lemma c_fold_in {A} (l : list (Serie T)) (f : A -> Serie T -> outcome A) a : Forall natural l -> (forall a s, natural s -> comes E any (f a s)) -> comes E any (foldO f l a).
  Proof. intros Hl Hf; rewrite Forall_forall in Hl. apply comes_foldO_in; [exact I|]. intros; apply Hf, Hl; assumption. Qed.
  Lemma c_concat (ss : list (Serie T)) : Forall natural ss -> comes E any (concat_series ss).
  Proof. intros Hs; unfold concat_series. destruct ss as [|s r]; [exact HI|]. apply comes_bind0; [unfold concat_check; go|intros n]. apply comes_bind0; [|intros; go]. apply c_fold_in; [exact Hs|intros; apply c_put_all; assumption]. Qed.
  Lemma c_range (s : Serie T) a n : natural s -> comes E any (copy_range s a n).
  Proof. intros Hs; unfold copy_range; go. Qed.
  Lemma c_partition_n n (s : Serie T) : natural s -> comes E any (partition_n n s).
  Proof.
    intros Hs; unfold partition_n. destruct (n =? 0); [exact I|]. generalize (iota n) at 1; generalize 0; generalize (@nil (Serie T)).
    intros ps st l; revert ps st; induction l as [|i l IH]; intros ps st; cbn [parts_loop]; go; apply c_range, Hs.
  Qed.
  Lemma c_partition_multi n (ss : list (Serie T)) : Forall natural ss -> comes E any (partition_n_multi n ss).
  Proof. intros Hs; rewrite Forall_forall in Hs; unfold partition_n_multi, partition_one; go; apply c_range; auto. Qed.
  Lemma c_zip_copy n (s : Serie T) i r : natural s -> comes E any (zip_copy n s i r).
  Proof. intros Hs; unfold zip_copy; go. Qed.
  Lemma c_zip (ss : list (Serie T)) : Forall natural ss -> comes E any (zip_series ss).
  Proof. intros Hs; unfold zip_series. destruct (negb _); [exact HI|]. apply comes_bind0; [go|intros n]. apply comes_bind0; [|intros; go]. apply c_fold_in; [exact Hs|intros; go; apply c_zip_copy; assumption]. Qed.
  Lemma c_zipVector (ss : list (Serie T)) : Forall natural ss -> comes E any (zipVector ss).
  Proof. intros Hs; unfold zipVector. destruct ss as [|s r]; [exact HI|]. destruct (negb _); [exact HI|]. apply comes_bind0; [go|intros n]. apply comes_bind0; [|intros; go]. apply c_fold_in; [exact Hs|intros; go; apply c_zip_copy; assumption]. Qed.
  Lemma c_unzip (s : Serie T) l : comes E any (unzip s l).
  Proof. unfold unzip, unzip_one; go. Qed.
  Lemma c_merge2 (a b : Serie T) c : natural a -> natural b -> comes E any (merge2 a b c).
  Proof. intros Ha Hb; unfold merge2. go; first [apply c_put_all; assumption|apply c_put_if; assumption]. Qed.
  Lemma c_mergeN c (ss : list (Serie T)) : Forall natural ss -> comes E any (mergeN c ss).
  Proof.
    intros Hs; unfold mergeN. destruct ss as [|s r]; [exact I|]. destruct (negb _); [exact HI|]. apply comes_bind0; [|intros; go]. destruct c; [apply c_fold_in; [exact Hs|intros; apply c_put_all; assumption]|].
    apply comes_foldO0; intros st i. apply c_fold_in; [exact Hs|intros; apply c_put_if; assumption].
  Qed.
  Lemma c_print (s : Serie T) : natural s -> comes E any (print s).
  Proof. intros Hs; unfold print, print_item, print_array; go. Qed.
End PlainInvalid2.

Ltac by_comes := eapply comes_throws.
(** Series of a negative item size: the only source of length_error *)
Theorem C164_length : forall {T} {NT : Num T} (s : Serie T) i,
  (value s i = Throw LengthError <-> itemSize_ s < 0) /\ (get_array s i = Throw LengthError <-> itemSize_ s < 0) /\
  throws (fun e => e = LengthError /\ itemSize_ s < 0) (value s i) /\ throws (fun e => e = LengthError /\ itemSize_ s < 0) (get_array s i) /\
  throws invalid (get_double s i) /\ throws invalid (scalar s i) /\
  (forall v x, throws invalid (set_array s i v) /\ throws invalid (setValue s i v) /\ throws invalid (set_double s i x) /\ throws invalid (setScalar s i x)).
Proof.
  intros T NT s i.
  assert (M : mapO (fun j => rd (s_ s) (u32 (u32 (i * itemSize_ s) + j))) (iota (itemSize_ s)) <> Throw LengthError).
  { intros X. assert (G : comes (fun _ => False) any (mapO (fun j => rd (s_ s) (u32 (u32 (i * itemSize_ s) + j))) (iota (itemSize_ s)))) by (apply comes_mapO0; intros; apply comes_rd). rewrite X in G; exact G. }
  assert (V : value s i = Throw LengthError <-> itemSize_ s < 0).
  { unfold value, read_item. destruct (itemSize_ s <? 0) eqn:X; split; intros G; try lia; [reflexivity|contradiction]. }
  assert (C : comes (fun e => e = LengthError /\ itemSize_ s < 0) any (value s i)).
  { unfold value, read_item. destruct (itemSize_ s <? 0) eqn:X; [split; [reflexivity|lia]|]. apply comes_mapO0; intros; apply comes_rd. }
  split; [exact V|]. split; [|split; [|split; [|split; [|split]]]].
  - unfold get_array. destruct (itemSize_ s =? 1) eqn:X; [|exact V]. split; [|lia]. intros G. exfalso.
    assert (Q : comes (fun _ => False) any (let* x := rd (s_ s) i in Ok [x])) by go. rewrite G in Q; exact Q.
  - by_comes; exact C.
  - apply comes_throws with (P := any). unfold get_array. destruct (itemSize_ s =? 1); [go|exact C].
  - by_comes; apply c_double; reflexivity.
  - by_comes; apply c_scalar; reflexivity.
  - intros v x; split; [|split; [|split]]; by_comes; [apply c_set_array|apply c_setValue|apply c_set_double|apply c_setScalar]; reflexivity.
Qed.
Print Assumptions C164_length.

(** no exception at all *)
Theorem C164_never : forall {T} {NT : Num T} (s t : Serie T), natural s -> natural t ->
  throws nothing (negate s) /\ (forall x, throws nothing (scale s x) /\ throws nothing (mult s x) /\ throws nothing (div_value x s) /\ throws nothing (fringes s x)) /\
  throws nothing (dot s t) /\ (forall v, throws nothing (dot_array s v) /\ throws nothing (insar s v)) /\
  throws nothing (norm s) /\ throws nothing (norm2 s) /\ throws nothing (normals s t) /\
  (forall epsilon, throws nothing (approximatelyEquals s t epsilon)) /\
  (forall v, throws nothing (squaredMatrix v) /\ throws nothing (symSquaredMatrix v)).
Proof.
  intros T NT s t Hs Ht. repeat apply conj.
  - by_comes; apply c_negate, Hs.
  - intros x; repeat apply conj; by_comes; [apply c_scale|apply c_mult|apply c_div_value|apply c_fringes]; exact Hs.
  - by_comes; apply c_dot; assumption.
  - intros v; split; by_comes; [apply c_dot_array|apply c_insar]; exact Hs.
  - by_comes; apply c_norm, Hs.
  - by_comes; apply c_norm2, Hs.
  - by_comes; apply c_normals; assumption.
  - intros e; apply comes_throws with (P := any). unfold approximatelyEquals; go.
  - intros v; split; by_comes; [apply c_squared|apply c_symSquared].
Qed.
Print Assumptions C164_never.

(** runtime_error *)
Theorem C164_runtime : forall {T} {NT : Num T} (s : Serie T), natural s ->
  throws runtime (inv s) /\ throws runtime (eigenValues s) /\ throws runtime (eigenVectors s) /\ throws (either invalid runtime) (eigenSystem s).
Proof.
  intros T NT s Hs; repeat apply conj; by_comes; [apply c_inv|apply c_eigenValues|apply c_eigenVectors|apply c_eigenSystem]; try exact Hs; try reflexivity; [left|right]; reflexivity.
Qed.
Print Assumptions C164_runtime.

(** invalid_argument only *)
Theorem C164_invalid : forall {T} {NT : Num T} (sorter : Sorter) (s t : Serie T) (ss : list (Serie T)), natural s -> natural t -> Forall natural ss ->
  (throws invalid (add s t) /\ throws invalid (sub s t) /\ throws invalid (add_list ss) /\ throws invalid (sub_list ss) /\ throws invalid (add_variadic ss) /\ throws invalid (add_of_sub_h ss)) /\
  (forall x, throws invalid (add_value s x) /\ throws invalid (sub_value s x)) /\
  (forall v, throws invalid (scale_array s v) /\ throws invalid (weigthedSum ss v)) /\
  throws invalid (mult_serie s t) /\ throws invalid (div_serie s t) /\ throws invalid (minMax s) /\ throws invalid (normalize s) /\
  throws invalid (equalityMask s t) /\ (forall x, throws invalid (approximateEqualityMask s t x)) /\
  (throws invalid (cross s t) /\ throws invalid (det s) /\ throws invalid (transpose s) /\ throws invalid (areas s t)) /\
  (throws invalid (mean s) /\ throws invalid (covariance s t) /\ (forall n a b, throws invalid (bins_between s n a b)) /\ (forall n, throws invalid (bins s n)) /\
   (forall q, throws invalid (quantile sorter s q)) /\ throws invalid (IQR sorter s) /\
   (forall m, throws invalid (outliers sorter s m) /\ throws invalid (isOutliers sorter s m) /\ throws invalid (notOutliers sorter s m))) /\
  (forall n c d, throws invalid (from_dims (T := T) n c d) /\ throws invalid (from_points (T := T) n c d)) /\
  (throws invalid (concat_series ss) /\ (forall n, throws invalid (partition_n n s) /\ throws invalid (partition_n_multi n ss)) /\ throws invalid (zip_series ss) /\ throws invalid (zipVector ss) /\
   (forall l, throws invalid (unzip s l)) /\ (forall c, throws invalid (merge2 s t c) /\ throws invalid (mergeN c ss)) /\ (forall c, throws invalid (sort_by sorter c s)) /\
   throws invalid (print s) /\ throws invalid (countAndCheck ss)).
Proof.
  intros T NT sorter s t ss Hs Ht Hss. assert (HI : invalid InvalidArgument) by reflexivity.
  assert (F : forall m, comes invalid any (fences sorter s m)) by (intros; apply c_fences; assumption).
  repeat apply conj; try (by_comes; solve
    [ apply c_pointwise; assumption | apply c_pointwise_list; assumption | apply c_add_variadic; assumption | apply c_add_of_sub; assumption
    | apply c_mult_serie; assumption | apply c_div_serie; assumption | apply c_minMax; assumption | apply c_normalize; assumption | apply c_mask; assumption
    | apply c_cross; assumption | apply c_det; assumption | apply c_transpose; assumption | apply c_areas; assumption
    | apply c_mean; assumption | apply c_covariance; assumption | apply c_concat; assumption | apply c_zip; assumption | apply c_zipVector; assumption
    | apply c_print; assumption | apply c_count; assumption ]).
  - intros x; split; by_comes; apply c_shift; assumption.
  - intros v; split; by_comes; [apply c_scale_array; assumption|apply c_weighted; assumption].
  - intros x; by_comes; apply c_mask; assumption.
  - intros n a b; by_comes; apply c_bins_between; assumption.
  - intros n; by_comes; apply c_bins; assumption.
  - intros q; by_comes; apply c_quantile; assumption.
  - apply comes_throws with (P := any). unfold IQR. go; apply c_quantile; assumption.
  - intros m; split; [|split]; apply comes_throws with (P := any); [unfold outliers|unfold isOutliers|unfold notOutliers]; (apply comes_bind0; [apply F|intros o]); apply comes_run.
    + unfold filter_s. apply comesM_bind0; [apply c_collect; intros; [apply c_double; assumption|go]|intros l; apply comesM_lift, c_take_s; assumption].
    + eapply comesM_mono; [|unfold check_s; apply c_map_num; intros; [apply c_double; assumption|go]]. auto.
    + unfold filter_s. apply comesM_bind0; [apply c_collect; intros; [apply c_double; assumption|go]|intros l; apply comesM_lift, c_take_s; assumption].
  - intros n c d; split; by_comes; [apply c_from_dims|apply c_from_points]; assumption.
  - intros n; split; by_comes; [apply c_partition_n|apply c_partition_multi]; assumption.
  - intros l; by_comes; apply c_unzip; assumption.
  - intros c; split; by_comes; [apply c_merge2|apply c_mergeN]; assumption.
  - intros c; by_comes; apply c_sort_by; assumption.
Qed.
Print Assumptions C164_invalid.
Print Assumptions C164_callbacks.
Print Assumptions C164_chains.

(** ** the exceptions do occur *)
Section Occur.
  Context {T : Type} {NT : Num T} (a : T).
  Definition three : Serie T := mk 1 [[a]; [a]; [a]] 3.
  Definition two : Serie T := mk 2 [[a; a]; [a; a]] 3.
  Definition negative : Serie T := {| s_ := [a]; count_ := 1; dimension_ := 3; itemSize_ := -1 |}.
  Example C164_example : natural three /\ natural two /\
    add three two = Throw InvalidArgument /\ transpose three = Throw InvalidArgument /\ eigenValues three = Throw RuntimeError /\ value negative 0 = Throw LengthError /\
    run (map_ss (fun x i => if i =? 1 then throwM (UserExn 7) else ret x) three) = Throw (UserExn 7) /\
    run (map_vv (fun v i => ret (if i =? 1 then [] else v)) two) = Throw RuntimeError /\
    run (map_vs (fun v i => ret a) negative) = Throw LengthError.
  Proof. repeat split; try reflexivity; cbn; lia. Qed.
  (** the callback throws only its own exceptions, and so does the call, apart from the library's *)
  Example C164_callback_example : let cb (x : T) (i : Z) : M unit T := if i =? 1 then throwM (UserExn 7) else ret x in
    (forall x i, throwsM (fun e => e = UserExn 7) (cb x i)) /\ throwsM (either (fun e => e = UserExn 7) invalid) (map_ss cb three).
  Proof.
    cbv zeta; assert (H : forall (x : T) i, throwsM (fun e => e = UserExn 7) (if i =? 1 then throwM (UserExn 7) else ret x : M unit T)).
    { intros x i st e; destruct (i =? 1); cbn; congruence. }
    split; [exact H|]. destruct (C164_callbacks (fun e => e = UserExn 7) (St := unit) three [] ltac:(split; cbn; lia) ltac:(constructor)) as (M & _). apply M; exact H.
  Qed.
End Occur.
