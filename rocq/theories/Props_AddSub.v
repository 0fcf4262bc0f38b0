(** * C54 - C58: add, sub, negate. *)
From Verif Require Import Base Num Serie Spec BaseFacts SerieFacts Functional FunctionalFacts Mathf MathFacts F64 F64Facts F64Arith.
From Verif Require Import Props_Functional.
From Flocq Require Import IEEE754.BinarySingleNaN.
#[local] Existing Instance F64N.
Opaque f64_of_Z.

(** ** C54: component by component, or an exception *)
Theorem C54_add_sub :
  forall (T : Type) (NT : Num T) (s1 s2 : Serie T),
  (forall k ra rb, repr s1 k ra -> repr s2 k rb -> len ra = len rb ->
     add s1 s2 = Ok (mk k (map2 (map2 n_add) ra rb) 3) /\
     sub s1 s2 = Ok (mk k (map2 (map2 n_sub) ra rb) 3)) /\
  (itemSize s1 <> itemSize s2 \/ count s1 <> count s2 ->
     add s1 s2 = Throw InvalidArgument /\ sub s1 s2 = Throw InvalidArgument).
Proof.
  intros T NT s1 s2; split.
  - intros k ra rb H1 H2 Hl; split; apply pointwise_ok; assumption.
  - intros H; unfold add, sub, pointwise.
    replace (negb (itemSize s1 =? itemSize s2) || negb (count s1 =? count s2)) with true; [split; reflexivity|].
    symmetry; apply orb_true_iff; rewrite !negb_true_iff, !Z.eqb_neq; exact H.
Qed.
Print Assumptions C54_add_sub.

Example C54_ex :
  let a := mk 2 [[#1; #2]; [#3; #4]] 3 in let b := mk 2 [[#10; #20]; [#30; #40]] 3 in
  repr a 2 [[#1; #2]; [#3; #4]] /\ repr b 2 [[#10; #20]; [#30; #40]] /\
  add a b = Ok (mk 2 [[#1 [+] #10; #2 [+] #20]; [#3 [+] #30; #4 [+] #40]] 3)%num /\
  add a (mk 1 [[#1]; [#2]] 3) = Throw InvalidArgument /\ add a (mk 2 [[#1; #2]] 3) = Throw InvalidArgument.
Proof. split; [repr_ex|]; split; [repr_ex|]; repeat split; reflexivity. Qed.

(** ** C55 *)
Lemma map2_comm {A} (f : A -> A -> A) : (forall x y, f x y = f y x) -> forall a b, map2 f a b = map2 f b a.
Proof. intros Hf a; induction a as [|x a IH]; intros [|y b]; simpl; try reflexivity; rewrite Hf, IH; reflexivity. Qed.

Lemma map2_rel {A B C D} (R : C -> D -> Prop) (f : A -> B -> C) (g : B -> A -> D) :
  (forall x y, R (f x y) (g y x)) -> forall a b, Forall2 R (map2 f a b) (map2 g b a).
Proof. intros Hf a; induction a as [|x a IH]; intros [|y b]; simpl; constructor; auto. Qed.
Lemma Forall2_map_r {A B C} (R : A -> C -> Prop) (f : B -> C) l l' : Forall2 (fun x y => R x (f y)) l l' -> Forall2 R l (map f l').
Proof. induction 1; simpl; constructor; auto. Qed.

Lemma negate_f64 L (s : Serie F64) k rows : repr s k rows -> rows <> [] -> 1 <= k ->
  @negate F64 (f64_num L) s = Ok (mk k (map (map f64_opp) rows) 3).
Proof.
  intros Hs Hne Hk; pose proof (repr_rows _ _ _ Hs) as Hr; unfold negate; rewrite (repr_itemSize _ _ _ Hs).
  apply (run_map_vv _ s k rows); auto.
  - unfold repr in Hs; lia.
  - apply map_length.
  - apply rows_map; exact Hr.
  - intros j r y Hj Hy; rewrite nth_error_map, Hj in Hy; injection Hy as <-; unfold lift.
    rewrite <- (rows_nth_len _ _ _ _ Hr Hj), upd_each_map.
    rewrite (map_ext _ f64_opp); [reflexivity|]; intros x; apply f64_mul_m1.
Qed.

(** [zeq x y]: the same double, or two zeros *)
Theorem C55_commutation :
  forall (L : Libm) (s1 s2 : Serie F64) k ra rb,
  repr s1 k ra -> repr s2 k rb -> len ra = len rb ->
  @add F64 (f64_num L) s1 s2 = @add F64 (f64_num L) s2 s1 /\
  (ra <> [] -> 1 <= k ->
   exists d e n rd re,
     @sub F64 (f64_num L) s1 s2 = Ok d /\ repr d k rd /\
     @sub F64 (f64_num L) s2 s1 = Ok e /\ @negate F64 (f64_num L) e = Ok n /\ repr n k re /\
     Forall2 (Forall2 (fun x y : F64 => (~ is_zero x -> x = y) /\ (is_zero x <-> is_zero y))) rd re).
Proof.
  intros L s1 s2 k ra rb H1 H2 Hl; split.
  - unfold add; rewrite (pointwise_ok _ s1 s2 k ra rb), (pointwise_ok _ s2 s1 k rb ra) by (auto; congruence).
    rewrite (map2_comm (map2 _)); [reflexivity|]; apply map2_comm; exact f64_add_comm.
  - intros Hne Hk.
    set (D := map2 (map2 f64_sub) ra rb); set (E := map2 (map2 f64_sub) rb ra).
    assert (Hb : 0 <= k < 2147483648 /\ len ra < 4294967296 /\ k * len ra < 4294967296) by (unfold repr in H1; tauto).
    assert (HD : rows_of_size k D) by (apply rows_map2; [apply (repr_rows _ _ _ H1)|apply (repr_rows _ _ _ H2)]).
    assert (HE : rows_of_size k E) by (apply rows_map2; [apply (repr_rows _ _ _ H2)|apply (repr_rows _ _ _ H1)]).
    assert (LD : len D = len ra) by (apply len_map2; exact Hl).
    assert (LE : len E = len ra) by (unfold E; rewrite len_map2; congruence).
    assert (RE : repr (mk k E 3) k E) by (apply repr_mk; rewrite ?LE; auto; lia).
    exists (mk k D 3), (mk k E 3), (mk k (map (map f64_opp) E) 3), D, (map (map f64_opp) E).
    split; [apply pointwise_ok; assumption|].
    split; [apply repr_mk; rewrite ?LD; auto; lia|].
    split; [apply pointwise_ok; auto|].
    split; [apply negate_f64; auto; intros E0; rewrite E0 in LE; destruct ra; [congruence|rewrite len_cons in LE; pose proof (len_nonneg ra); change (len (@nil (list F64))) with 0 in LE; lia]|].
    split; [apply repr_mk; [apply rows_map; exact HE|lia|rewrite len_map; lia|rewrite len_map, LE; lia]|].
    apply Forall2_map_r; unfold D, E.
    apply (map2_rel (fun r r' => Forall2 _ r (map f64_opp r'))); intros r r'.
    apply Forall2_map_r, (map2_rel (fun x y : F64 => (~ is_zero x -> x = Bopp y) /\ (is_zero x <-> is_zero (Bopp y)))).
    intros x y.
    assert (Z : forall u : F64, is_zero (Bopp u) <-> is_zero u).
    { intros u; split; intros [s Es].
      - exists (negb s); rewrite <- (@Bopp_involutive 53 1024 u), Es; reflexivity.
      - exists (negb s); rewrite Es; reflexivity. }
    rewrite Z, !f64_sub_zero; split; [|intuition].
    intros Hn; destruct (f64_sub_anti x y) as [Hz|He]; [|exact He].
    exfalso; apply Hn, f64_sub_zero, Hz.
Qed.
Print Assumptions C55_commutation.

(** at zero the signs differ: 1 - 1 is +0 both ways, and its opposite is -0 *)
Example C55_ex :
  let a := mk 1 [[#1]; [f64_inf]] 3 in let b := mk 1 [[#1]; [#2]] 3 in
  repr a 1 [[#1]; [f64_inf]] /\ repr b 1 [[#1]; [#2]] /\
  sub a b = Ok (mk 1 [[f64_sub #1 #1]; [f64_inf]] 3) /\ sub b a = Ok (mk 1 [[f64_sub #1 #1]; [f64_ninf]] 3) /\
  show (f64_sub #1 #1) = SpecFloat.S754_zero false /\ show (Bopp (f64_sub #1 #1)) = SpecFloat.S754_zero true.
Proof. split; [repr_ex|]; split; [repr_ex|]; repeat split; reflexivity. Qed.

(** ** C56, C57: lists of Series of one shape *)
Definition one_shape {T} (ss : list (Serie T)) (k n : Z) (tables : list (list (list T))) : Prop :=
  Forall2 (fun s t => repr s k t /\ len t = n) ss tables.

Section Lists.
  Context {T : Type} {NT : Num T}.

  Lemma pointwise_list_ok (op : T -> T -> T) s0 ss k n t0 ts :
    one_shape (s0 :: ss) k n (t0 :: ts) -> t0 <> [] -> 1 <= k ->
    pointwise_list op (s0 :: ss) = Ok (mk k (fold_left (map2 (map2 op)) ts t0) 3).
  Proof.
    intros H Hne Hk; inversion H as [|? ? ? ? [H0 L0] Hr]; subst.
    assert (Lf : forall ts t, Forall (fun t' => len t' = len t) ts -> length (fold_left (map2 (map2 op)) ts t) = length t).
    { clear; induction ts as [|t' ts IH]; intros t Ht; [reflexivity|]; inversion Ht; subst; simpl.
      assert (Em : length (map2 (map2 op) t t') = length t) by (apply map2_length; unfold len in *; lia).
      rewrite IH; [exact Em|]; eapply Forall_impl; [|eassumption]; simpl; intros u Hu; unfold len in *; lia. }
    assert (Hts : Forall (fun t' => len t' = len t0) ts).
    { clear -Hr; induction Hr as [|? ? ? ? [_ E]]; constructor; auto. }
    unfold pointwise_list.
    replace (forallb _ ss) with true.
    2:{ symmetry; apply forallb_forall; intros s Hs; clear -Hr Hs H0; induction Hr as [|s1 t1 ss ts [H1 L1] Hr IH]; [destruct Hs|].
        destruct Hs as [->|Hs]; [|apply IH; exact Hs].
        rewrite (repr_count _ _ _ H0), (repr_count _ _ _ H1), (repr_itemSize _ _ _ H0), (repr_itemSize _ _ _ H1), L1, !Z.eqb_refl; reflexivity. }
    rewrite (repr_itemSize _ _ _ H0).
    pose proof (repr_rows _ _ _ H0) as R0.
    assert (Hst : Forall2 (fun s t => repr s k t) ss ts) by (clear -Hr; induction Hr as [|? ? ? ? [Hx _]]; constructor; auto).
    assert (Hrows : rows_of_size k (fold_left (map2 (map2 op)) ts t0)).
    { clear -Hst R0; revert t0 R0; induction Hst as [|s t ss ts Ht Hst IH]; intros t0 R0; simpl; [exact R0|].
      apply IH, rows_map2; [exact R0|apply (repr_rows _ _ _ Ht)]. }
    apply (run_map_vv _ s0 k t0); auto; [unfold repr in H0; lia|].
    intros j r y Hj Hy; unfold lift; f_equal.
    pose proof (rows_nth_len _ _ _ _ R0 Hj) as Lr.
    clear Hrows Hne H0 H R0 Hr; revert t0 r Hj Hy Lr Hts; induction Hst as [|s t ss ts Hs Hst IH]; intros t0 r Hj Hy Lr Hts.
    - simpl in *; congruence.
    - pose proof (Forall_inv Hts) as Lt; pose proof (Forall_inv_tail Hts) as Hts'; cbn [fold_left] in Hy; cbn [foldO].
      destruct (nth_error_len t j) as [v Hv]; [pose proof (nth_error_lt _ _ _ Hj); unfold len in *; lia|].
      pose proof (rows_nth_len _ _ _ _ (repr_rows _ _ _ Hs) Hv) as Lv.
      assert (Eu : upd_each k (fun k0 x => let* v0 := value s (Z.of_nat j) in let* y0 := rd v0 k0 in Ok (op x y0)) r = Ok (map2 op r v)).
      { rewrite (value_nth _ _ _ _ _ Hs Hv); cbn [obind]; rewrite <- Lr; apply upd_each_map2; congruence. }
      rewrite Eu; cbn [obind].
      assert (El : len (map2 op r v) = len r) by (apply len_map2; congruence).
      apply (IH (map2 (map2 op) t0 t)); auto.
      + apply nth_error_map2; assumption.
      + congruence.
      + eapply Forall_impl; [|exact Hts']; simpl; intros u Hu; rewrite len_map2; congruence.
  Qed.
End Lists.

Theorem C56_list_sum :
  forall (T : Type) (NT : Num T) s0 ss k n t0 ts,
  one_shape (s0 :: ss) k n (t0 :: ts) -> 1 <= n -> 1 <= k ->
  @add_list T NT (s0 :: ss) = Ok (mk k (fold_left (map2 (map2 n_add)) ts t0) 3).
Proof.
  intros T NT s0 ss k n t0 ts H Hn Hk; apply (pointwise_list_ok _ s0 ss k n t0 ts); auto.
  intros ->; inversion H as [|? ? ? ? [_ L] _]; subst; change (len (@nil (list T))) with 0 in Hn; lia.
Qed.
Print Assumptions C56_list_sum.

Theorem C56_variadic_sum :
  forall (L : Libm) s0 ss k n t0 ts,
  one_shape (s0 :: ss) k n (t0 :: ts) ->
  exists rows,
    @add_variadic F64 (f64_num L) (s0 :: ss) = Ok (mk k rows 3) /\
    Forall2 (Forall2 zeq) rows (fold_left (map2 (map2 f64_add)) ts t0).
Proof.
  intros L s0 ss k n t0 ts H; inversion H as [|? ? ? ? [H0 L0] Hr]; subst.
  destruct ss as [|s1 [|s2 ss]].
  2:{ (* two arguments *)
      inversion Hr as [|? t1 ? ts1 [H1 L1] Hr1]; subst; inversion Hr1; subst.
      exists (map2 (map2 f64_add) t0 t1); split.
      - unfold add_variadic, add; apply pointwise_ok; auto.
      - simpl; generalize (map2 (map2 f64_add) t0 t1); intros l; induction l as [|r l IH]; constructor; auto.
        induction r; constructor; auto using zeq_refl. }
  all: set (SS := s0 :: _) in *; set (TS := t0 :: ts) in *.
  all: assert (Hb : 0 <= k < 2147483648 /\ len t0 < 4294967296 /\ k * len t0 < 4294967296) by (unfold repr in H0; tauto).
  all: assert (Hc : countAndCheck SS = Ok (len t0)).
  1,3: unfold SS, countAndCheck; rewrite (repr_count _ _ _ H0);
       rewrite (proj2 (forallb_forall _ _)); [reflexivity|]; intros s Hs; clear -Hr Hs;
       induction Hr as [|s3 t3 ss3 ts3 [H3 L3] Hr IH]; [destruct Hs|];
       destruct Hs as [->|Hs]; [rewrite (repr_count _ _ _ H3), L3; apply Z.eqb_refl|apply IH; exact Hs].
  all: assert (Hz : @serie_n F64 (f64_num L) (s32 (itemSize s0)) (count s0) 3 = mk k (@zrows F64 (f64_num L) k (len t0)) 3)
       by (rewrite (repr_itemSize _ _ _ H0), (repr_count _ _ _ H0), s32_small by lia; apply serie_n_mk; pose proof (len_nonneg t0); lia).
  all: change (@add_variadic F64 (f64_num L) SS) with
        (let* _ := countAndCheck SS in
         foldO (fun result s => let* r := @add F64 (f64_num L) result s in Ok (serie_assign result r)) SS
           (@serie_n F64 (f64_num L) (s32 (itemSize s0)) (count s0) 3)).
  all: rewrite Hc; cbn [obind]; rewrite Hz; clear Hc Hz Hr.
  all: assert (G : forall SS TS z, one_shape SS k (len t0) TS -> rows_of_size k z -> len z = len t0 ->
         foldO (fun result s => let* r := @add F64 (f64_num L) result s in Ok (serie_assign result r)) SS (mk k z 3)
         = Ok (mk k (fold_left (map2 (map2 f64_add)) TS z) 3)).
  1,3: clear -Hb; intros SS TS z HH; revert z; induction HH as [|s t SS TS [Hs Hl] HH IH]; intros z Rz Lz; [reflexivity|];
       cbn [foldO fold_left]; unfold add at 1;
       rewrite (pointwise_ok _ (mk k z 3) s k z t); [|apply repr_mk; auto; rewrite ?Lz; lia|exact Hs|congruence]; cbn [obind];
       unfold serie_assign; cbn [s_ count_ dimension_ itemSize_ mk];
       fold (mk k (map2 (map2 f64_add) z t) 3);
       apply IH; [apply rows_map2; [exact Rz|apply (repr_rows _ _ _ Hs)]|rewrite len_map2; congruence].
  all: exists (fold_left (map2 (map2 f64_add)) TS (@zrows F64 (f64_num L) k (len t0))); split;
       [apply G; [exact H|apply rows_zrows; lia|apply len_zrows, len_nonneg]|].
  all: unfold TS; cbn [fold_left].
  all: assert (Zr : forall a b : list (list F64), Forall2 (Forall2 zeq) a b -> forall c, Forall2 (Forall2 zeq) (map2 (map2 f64_add) a c) (map2 (map2 f64_add) b c)).
  1,3: clear; induction 1 as [|r r' a b Hr Ha IH]; intros [|q c]; simpl; constructor; auto; clear -Hr; revert q;
       induction Hr as [|x y r r' Hx Hr IH]; intros [|z q]; simpl; constructor; auto; apply zeq_add; [exact Hx|apply zeq_refl].
  all: assert (Z0 : Forall2 (Forall2 zeq) (map2 (map2 f64_add) (@zrows F64 (f64_num L) k (len t0)) t0) t0).
  1,3: unfold zrows; pose proof (repr_rows _ _ _ H0) as R0; clear -R0; unfold len; rewrite Nat2Z.id;
       induction R0 as [|r t Lr R0 IH]; simpl; constructor; auto; unfold zrow; rewrite <- Lr; unfold len; rewrite Nat2Z.id;
       clear; induction r as [|x r IH]; simpl; constructor; auto; apply zeq_0_add, f64_of_0_zero.
  all: clear -Zr Z0; revert Z0; generalize (map2 (map2 f64_add) (@zrows F64 (f64_num L) k (len t0)) t0) as a; generalize t0 as b.
  all: induction ts as [|t ts IH]; intros b a Hab; simpl; auto.
Qed.
Print Assumptions C56_variadic_sum.

Theorem C56_add_value :
  forall (T : Type) (NT : Num T) (s : Serie T) v,
  (forall xs, repr s 1 (col xs) -> add_value s v = Ok (mk 1 (col (map (fun x => n_add x v) xs)) 3)) /\
  (itemSize s <> 1 -> add_value s v = Throw InvalidArgument).
Proof.
  intros T NT s v; unfold add_value, shift; split.
  - intros xs Hs; rewrite (repr_itemSize _ _ _ Hs); cbn [Z.eqb negb Pos.eqb].
    unfold run; rewrite (map_ss_pure s xs (fun x => n_add x v) tt Hs); reflexivity.
  - intros Hk; apply Z.eqb_neq in Hk; rewrite Hk; reflexivity.
Qed.
Print Assumptions C56_add_value.

(** wrong shapes: some Serie differs from the first in count or item size *)
Theorem C56_shapes :
  forall (T : Type) (NT : Num T) (s0 : Serie T) ss,
  (exists s, In s ss /\ (count s <> count s0 \/ itemSize s <> itemSize s0)) ->
  add_list (s0 :: ss) = Throw InvalidArgument /\ sub_list (s0 :: ss) = Throw InvalidArgument /\
  ((exists kts, reprs (s0 :: ss) kts) -> add_variadic (s0 :: ss) = Throw InvalidArgument).
Proof.
  intros T NT s0 ss (s & Hin & Hd).
  assert (Hf : forallb (fun s => (count s0 =? count s) && (itemSize s0 =? itemSize s)) ss = false).
  { apply not_true_iff_false; rewrite forallb_forall; intros Hall; specialize (Hall s Hin).
    apply andb_prop in Hall; destruct Hall as [A B]; apply Z.eqb_eq in A, B; destruct Hd; congruence. }
  split; [|split].
  - unfold add_list, pointwise_list; rewrite Hf; reflexivity.
  - unfold sub_list, pointwise_list; rewrite Hf; reflexivity.
  - intros (kts & Hr).
    destruct ss as [|s1 [|s2 ss]]; [destruct Hin| |].
    { unfold add_variadic; apply C54_add_sub; destruct Hin as [->|[]]; destruct Hd; [right|left]; congruence. }
    set (SS := s1 :: s2 :: ss) in *.
    change (add_variadic (s0 :: SS)) with
      (let* _ := countAndCheck (s0 :: SS) in
       foldO (fun result s => let* r := add result s in Ok (serie_assign result r)) (s0 :: SS)
         (serie_n (s32 (itemSize s0)) (count s0) 3)).
    destruct Hd as [Hd|Hd]; [rewrite (countAndCheck_throw _ s s0); simpl; auto|].
    destruct (countAndCheck (s0 :: SS)) as [c|e|] eqn:Ec.
    2:{ revert Ec; unfold countAndCheck; cbn [obind]; destruct (forallb (fun s => count s =? count s0) SS); intros Q; [discriminate Q|try discriminate Q; injection Q as <-; reflexivity]. }
    2:{ revert Ec; unfold countAndCheck; cbn [obind]; destruct (forallb (fun s => count s =? count s0) SS); intros Q; [discriminate Q|try discriminate Q; injection Q as <-; reflexivity]. }
    cbn [obind].
    assert (Hall : forall s, In s (s0 :: SS) -> count s = count s0).
    { revert Ec; unfold countAndCheck; destruct (forallb (fun s => count s =? count s0) SS) eqn:E; [|discriminate]; intros _.
      rewrite forallb_forall in E; intros s' [->|Hs']; [reflexivity|]; apply Z.eqb_eq, E, Hs'. }
    inversion Hr as [|? [k0 t0] ? kts' H0 Hr']; subst; cbn [fst snd] in *.
    assert (Hb : 0 <= k0 < 2147483648 /\ len t0 < 4294967296 /\ k0 * len t0 < 4294967296) by (unfold repr in H0; tauto).
    rewrite (repr_itemSize _ _ _ H0) in *; rewrite (repr_count _ _ _ H0) in *; rewrite s32_small by lia.
    rewrite serie_n_mk by (pose proof (len_nonneg t0); lia).
    assert (Hin' : In s (s0 :: SS)) by (right; exact Hin); clear Hin Hf Ec Hr' H0.
    assert (Rz : rows_of_size k0 (zrows k0 (len t0))) by (apply rows_zrows; lia).
    assert (Lz : len (zrows k0 (len t0)) = len t0) by apply len_zrows, len_nonneg.
    revert Hall Hin' Rz Lz Hr; generalize (zrows k0 (len t0)) as z; generalize (s0 :: SS) as l; generalize ((k0, t0) :: kts') as kl.
    intros kl l; revert kl; induction l as [|s' l IH]; intros kl z Hall Hin Rz Lz Hr; [destruct Hin|].
    inversion Hr as [|? [k' t'] ? kl' H' Hr']; subst; cbn [fst snd] in *; cbn [foldO].
    pose proof (Hall s' (or_introl eq_refl)) as Ec; rewrite (repr_count _ _ _ H') in Ec.
    assert (Rk : repr (mk k0 z 3) k0 z) by (apply repr_mk; auto; rewrite ?Lz; lia).
    destruct (Z.eq_dec k' k0) as [->|Hk].
    + unfold add; rewrite (pointwise_ok _ (mk k0 z 3) s' k0 z t' Rk H') by congruence; cbn [obind].
      unfold serie_assign; cbn [s_ count_ dimension_ itemSize_ mk].
      fold (mk k0 (map2 (map2 n_add) z t') 3).
      apply (IH kl'); auto.
      * intros s2' Hs2; apply Hall; right; exact Hs2.
      * destruct Hin as [->|Hin]; [|exact Hin]; rewrite (repr_itemSize _ _ _ H') in Hd; congruence.
      * apply rows_map2; [exact Rz|apply (repr_rows _ _ _ H')].
      * rewrite len_map2; congruence.
    + rewrite (proj1 (proj2 (C54_add_sub T NT (mk k0 z 3) s') ltac:(left; rewrite (repr_itemSize _ _ _ Rk), (repr_itemSize _ _ _ H'); congruence))).
      reflexivity.
Qed.
Print Assumptions C56_shapes.

Example C56_ex :
  let a := mk 1 [[#1]; [#2]] 3 in let b := mk 1 [[#10]; [#20]] 3 in let c := mk 1 [[#100]; [#200]] 3 in
  one_shape [a; b; c] 1 2 [[[#1]; [#2]]; [[#10]; [#20]]; [[#100]; [#200]]] /\
  add_list [a; b; c] = Ok (mk 1 [[#1 [+] #10 [+] #100]; [#2 [+] #20 [+] #200]] 3)%num /\
  add_variadic [a; b; c] = Ok (mk 1 [[#0 [+] #1 [+] #10 [+] #100]; [#0 [+] #2 [+] #20 [+] #200]] 3)%num /\
  add_list [a; mk 1 [[#1]] 3] = Throw InvalidArgument /\
  add_variadic [a; b; mk 1 [[#1]] 3] = Throw InvalidArgument.
Proof.
  split; [repeat (constructor; [split; [repr_ex|reflexivity]|]); constructor|].
  repeat split; reflexivity.
Qed.

(** ** C57 *)
Theorem C57_sub_overloads :
  forall (T : Type) (NT : Num T),
  (forall s0 ss k n t0 ts, one_shape (s0 :: ss) k n (t0 :: ts) -> 1 <= n -> 1 <= k ->
     @sub_list T NT (s0 :: ss) = Ok (mk k (fold_left (map2 (map2 n_sub)) ts t0) 3)) /\
  (forall (s : Serie T) v xs, repr s 1 (col xs) -> sub_value s v = Ok (mk 1 (col (map (fun x => n_sub x v) xs)) 3)) /\
  (forall (s : Serie T) v, itemSize s <> 1 -> sub_value s v = Throw InvalidArgument) /\
  (forall (s0 : Serie T) ss, (exists s, In s ss /\ (count s <> count s0 \/ itemSize s <> itemSize s0)) ->
     sub_list (s0 :: ss) = Throw InvalidArgument).
Proof.
  intros T NT; split; [|split; [|split]].
  - intros s0 ss k n t0 ts H Hn Hk; apply (pointwise_list_ok _ s0 ss k n t0 ts); auto.
    intros ->; inversion H as [|? ? ? ? [_ L] _]; subst; change (len (@nil (list T))) with 0 in Hn; lia.
  - intros s v xs Hs; unfold sub_value, shift; rewrite (repr_itemSize _ _ _ Hs); cbn [Z.eqb negb Pos.eqb].
    unfold run; rewrite (map_ss_pure s xs (fun x => n_sub x v) tt Hs); reflexivity.
  - intros s v Hk; unfold sub_value, shift; apply Z.eqb_neq in Hk; rewrite Hk; reflexivity.
  - intros s0 ss H; apply (C56_shapes T NT s0 ss H).
Qed.
Print Assumptions C57_sub_overloads.

Example C57_ex :
  let a := mk 2 [[#1; #2]] 3 in let b := mk 2 [[#10; #20]] 3 in let c := mk 2 [[#100; #200]] 3 in
  one_shape [a; b; c] 2 1 [[[#1; #2]]; [[#10; #20]]; [[#100; #200]]] /\
  sub_list [a; b; c] = Ok (mk 2 [[#1 [-] #10 [-] #100; #2 [-] #20 [-] #200]] 3)%num /\
  sub_value (mk 1 [[#5]; [#6]] 3) #2 = Ok (mk 1 [[#5 [-] #2]; [#6 [-] #2]] 3)%num /\
  sub_value a #2 = Throw InvalidArgument.
Proof.
  split; [repeat (constructor; [split; [repr_ex|reflexivity]|]); constructor|].
  repeat split; reflexivity.
Qed.

(** ** C58 *)
Theorem C58_negate :
  forall (L : Libm) (s : Serie F64) k rows, repr s k rows -> rows <> [] -> 1 <= k ->
  exists n, @negate F64 (f64_num L) s = Ok n /\ n = mk k (map (map f64_opp) rows) 3 /\
            @negate F64 (f64_num L) n = Ok (mk k rows 3).
Proof.
  intros L s k rows Hs Hne Hk; exists (mk k (map (map f64_opp) rows) 3).
  split; [apply negate_f64; assumption|]; split; [reflexivity|].
  rewrite (negate_f64 L _ k (map (map f64_opp) rows)).
  - rewrite map_map, (map_ext _ (fun r => r)), map_id; [reflexivity|].
    intros r; rewrite map_map, (map_ext _ (fun x => x)), map_id; [reflexivity|]; intros x; apply Bopp_involutive.
  - unfold repr in Hs; apply repr_mk; [apply rows_map; apply Hs| |rewrite len_map|rewrite len_map]; tauto.
  - destruct rows; [congruence|discriminate].
  - exact Hk.
Qed.
Print Assumptions C58_negate.

Example C58_ex :
  let s := mk 2 [[B754_zero false; f64_inf]; [f64_nan; #3]] 3 in
  repr s 2 [[B754_zero false; f64_inf]; [f64_nan; #3]] /\
  negate s = Ok (mk 2 [[B754_zero true; f64_ninf]; [f64_nan; Bopp #3]] 3) /\
  negate (mk 2 [] 3 : Serie F64) = Ok (mk 0 [] 3).
Proof.
  split; [repr_ex|]; split; [|reflexivity].
  rewrite (negate_f64 libm0 _ 2 [[B754_zero false; f64_inf]; [f64_nan; #3]]); [reflexivity|repr_ex|discriminate|lia].
Qed.
