(** * C155: the function [add] that sub.h provides. *)
From Coq Require Import Reals Lra.
From Verif Require Import Base Num Serie Spec BaseFacts SerieFacts Functional FunctionalFacts Mathf MathFacts F64 F64Facts F64Arith RNum.
From Verif Require Import Props_Functional Props_AddSub.
From Verif Require Import SubAdd.
From Flocq Require Import IEEE754.BinarySingleNaN.
Open Scope Z_scope.
Opaque f64_of_Z.

(** [n] items of [k] times the number [x] *)
Definition filled {T} (x : T) (k n : Z) : list (list T) := repeat (repeat x (Z.to_nat k)) (Z.to_nat n).

Theorem C155_value :
  forall (T : Type) (NT : Num T) (s0 : Serie T) ss k n t0 ts,
  one_shape (s0 :: ss) k n (t0 :: ts) ->
  add_of_sub_h (s0 :: ss) = Ok (mk k (fold_left (map2 (map2 n_sub)) (t0 :: ts) (filled n0 k n)) 3).
Proof.
  intros T NT s0 ss k n t0 ts H; inversion H as [|? ? ? ? [H0 L0] Hr]; subst.
  set (SS := s0 :: ss) in *; set (TS := t0 :: ts) in *.
  assert (Hb : 0 <= k < 2147483648 /\ len t0 < 4294967296 /\ k * len t0 < 4294967296) by (unfold repr in H0; tauto).
  assert (Hc : countAndCheck SS = Ok (len t0)).
  { unfold SS, countAndCheck; rewrite (repr_count _ _ _ H0).
    rewrite (proj2 (forallb_forall _ _)); [reflexivity|]; intros s Hs; clear -Hr Hs.
    induction Hr as [|s3 t3 ss3 ts3 [H3 L3] Hr IH]; [destruct Hs|].
    destruct Hs as [->|Hs]; [rewrite (repr_count _ _ _ H3), L3; apply Z.eqb_refl|apply IH; exact Hs]. }
  assert (Hz : serie_n (s32 (itemSize s0)) (count s0) 3 = mk k (filled n0 k (len t0)) 3).
  { rewrite (repr_itemSize _ _ _ H0), (repr_count _ _ _ H0), s32_small by lia.
    rewrite serie_n_mk by (pose proof (len_nonneg t0); lia). reflexivity. }
  unfold add_of_sub_h. unfold SS at 1. rewrite Hc; cbn [obind]. rewrite Hz.
  assert (G : forall SS TS z, one_shape SS k (len t0) TS -> rows_of_size k z -> len z = len t0 ->
    foldO (fun result s => let* r := sub result s in Ok (serie_assign result r)) SS (mk k z 3)
    = Ok (mk k (fold_left (map2 (map2 n_sub)) TS z) 3)).
  { clear -Hb; intros SS TS z HH; revert z; induction HH as [|s t SS TS [Hs Hl] HH IH]; intros z Rz Lz; [reflexivity|].
    cbn [foldO fold_left]; unfold sub at 1.
    rewrite (pointwise_ok _ (mk k z 3) s k z t); [|apply repr_mk; auto; rewrite ?Lz; lia|exact Hs|congruence]; cbn [obind].
    unfold serie_assign; cbn [s_ count_ dimension_ itemSize_ mk].
    fold (mk k (map2 (map2 n_sub) z t) 3).
    apply IH; [apply rows_map2; [exact Rz|apply (repr_rows _ _ _ Hs)]|rewrite len_map2; congruence]. }
  apply G; [exact H|apply rows_zrows; lia|apply len_zrows, len_nonneg].
Qed.
Print Assumptions C155_value.

(** Relations between the numbers carry over to the tables. *)
Lemma fold_rel {A B} (R : A -> B -> Prop) (f : A -> A -> A) (g : B -> A -> B) :
  (forall a b x, R a b -> R (f a x) (g b x)) ->
  forall ts a b, Forall2 (Forall2 R) a b -> Forall2 (Forall2 R) (fold_left (map2 (map2 f)) ts a) (fold_left (map2 (map2 g)) ts b).
Proof.
  intros Hf.
  assert (Row : forall a b c, Forall2 R a b -> Forall2 R (map2 f a c) (map2 g b c)).
  { intros a b c H; revert c; induction H; intros [|z c]; simpl; constructor; auto. }
  assert (Tab : forall a b c, Forall2 (Forall2 R) a b -> Forall2 (Forall2 R) (map2 (map2 f) a c) (map2 (map2 g) b c)).
  { intros a b c H; revert c; induction H; intros [|z c]; simpl; constructor; auto. }
  induction ts as [|t ts IH]; intros a b H; [exact H|]. simpl. apply IH, Tab, H.
Qed.
Lemma first_rel {A B} (R : A -> B -> Prop) (f : A -> B -> A) x k t : rows_of_size k t -> (forall y, R (f x y) y) ->
  Forall2 (Forall2 R) (map2 (map2 f) (filled x k (len t)) t) t.
Proof.
  intros Ht Hf; unfold filled, len; rewrite Nat2Z.id. induction Ht as [|r t Hr Ht IH]; simpl; constructor; [|exact IH].
  rewrite <- Hr; unfold len; rewrite Nat2Z.id. clear -Hf. induction r as [|y r IH]; simpl; constructor; auto.
Qed.
Lemma rel_fun {A B} (f : B -> A) a b : Forall2 (Forall2 (fun x y => x = f y)) a b -> a = map (map f) b.
Proof.
  induction 1 as [|r q a b Hr Ha IH]; simpl; [reflexivity|]. f_equal; [|exact IH].
  clear -Hr; induction Hr as [|x y r q E Hr IH]; simpl; congruence.
Qed.

(** In exact arithmetic: the negated sum. *)
Theorem C155_exact :
  forall (s0 : Serie R) ss k n t0 ts, one_shape (s0 :: ss) k n (t0 :: ts) ->
  @add_of_sub_h R r_num (s0 :: ss) = Ok (mk k (map (map Ropp) (fold_left (map2 (map2 Rplus)) ts t0)) 3).
Proof.
  intros s0 ss k n t0 ts H; rewrite (C155_value R r_num s0 ss k n t0 ts H). do 2 f_equal. apply rel_fun. cbn [fold_left].
  inversion H as [|? ? ? ? [H0 L0] _]; subst.
  apply (fold_rel (fun x y => x = - y)%R); [intros a b x ->; change (@n_sub R r_num) with Rminus; lra|].
  apply (first_rel (fun x y => x = - y)%R _ _ _ _ (repr_rows _ _ _ H0)). intros y. change (@n_sub R r_num) with Rminus. change (@n0 R r_num) with 0%R. lra.
Qed.
Print Assumptions C155_exact.

(** In doubles: the negated sum, rounding included, up to the sign of a zero. *)
Lemma zeq_neg_sub a b x : zeq a (Bopp b) -> zeq (f64_sub a x) (Bopp (f64_add b x)).
Proof.
  intros Hab; rewrite f64_sub_add. eapply zeq_trans; [apply zeq_add; [exact Hab|apply zeq_refl]|].
  assert (O : forall u : F64, is_zero u -> is_zero (Bopp u)) by (intros u [s ->]; exists (negb s); reflexivity).
  destruct (f64_add_opp b x) as [Z|E]; [|left; exact E]. right; split; [|apply O, Z].
  destruct (f64_add_opp (Bopp b) (Bopp x)) as [Z'|E']; [exact Z'|].
  rewrite !Bopp_involutive in E'. rewrite E' in Z. apply O in Z. rewrite Bopp_involutive in Z. exact Z.
Qed.
Theorem C155_doubles :
  forall (L : Libm) (s0 : Serie F64) ss k n t0 ts, one_shape (s0 :: ss) k n (t0 :: ts) ->
  exists rows, @add_of_sub_h F64 (f64_num L) (s0 :: ss) = Ok (mk k rows 3) /\
    Forall2 (Forall2 (fun x y => zeq x (Bopp y))) rows (fold_left (map2 (map2 f64_add)) ts t0).
Proof.
  intros L s0 ss k n t0 ts H; eexists; split; [apply (C155_value F64 (f64_num L) s0 ss k n t0 ts H)|]. cbn [fold_left].
  inversion H as [|? ? ? ? [H0 L0] _]; subst.
  apply (fold_rel (fun x y => zeq x (Bopp y)) f64_sub f64_add); [intros a b x Hab; apply zeq_neg_sub, Hab|].
  apply (first_rel (fun x y : F64 => zeq x (Bopp y)) f64_sub _ _ _ (repr_rows _ _ _ H0)).
  intros y. rewrite f64_sub_add. apply zeq_0_add, f64_of_0_zero.
Qed.
Print Assumptions C155_doubles.

(** Hence it never gives the sum, unless the sum is zero. *)
Theorem C155_not_the_sum :
  forall (s0 : Serie R) ss k n t0 ts, one_shape (s0 :: ss) k n (t0 :: ts) ->
  (@add_of_sub_h R r_num (s0 :: ss) = Ok (mk k (fold_left (map2 (map2 Rplus)) ts t0) 3) <->
   Forall (Forall (fun x => x = 0%R)) (fold_left (map2 (map2 Rplus)) ts t0)).
Proof.
  intros s0 ss k n t0 ts H; rewrite (C155_exact s0 ss k n t0 ts H).
  set (rows := fold_left _ ts t0). split.
  - intros E. apply (f_equal (fun o => match o with Ok s => s_ s | _ => [] end)) in E. cbn [mk s_] in E.
    assert (G : Forall (fun x => x = 0%R) (concat rows)).
    { rewrite <- concat_map in E. induction (concat rows) as [|x l IH]; constructor; simpl in E; injection E as E1 E2; [lra|auto]. }
    apply Forall_concat in G. exact G.
  - intros G. do 2 f_equal. induction G as [|r rows' Hr Hrs IH]; simpl; [reflexivity|]. f_equal; [|exact IH].
    clear -Hr; induction Hr as [|x r Hx Hr IH]; simpl; [reflexivity|]. f_equal; [lra|exact IH].
Qed.
Print Assumptions C155_not_the_sum.

Theorem C155_shapes :
  forall (T : Type) (NT : Num T) (s0 : Serie T) ss,
  ((exists s, In s ss /\ count s <> count s0) -> add_of_sub_h (s0 :: ss) = Throw InvalidArgument) /\
  ((exists kts, reprs (s0 :: ss) kts) -> (exists s, In s ss /\ itemSize s <> itemSize s0) -> add_of_sub_h (s0 :: ss) = Throw InvalidArgument).
Proof.
  intros T NT s0 SS. split.
  { intros (s & Hin & Hd). unfold add_of_sub_h.
    rewrite (countAndCheck_throw (s0 :: SS) s s0); [reflexivity|right; exact Hin|left; reflexivity|exact Hd]. }
  intros (kts & Hr) (s & Hin & Hd).
  unfold add_of_sub_h.
  destruct (forallb (fun s => count s =? count s0) SS) eqn:E.
  2:{ unfold countAndCheck; rewrite E; reflexivity. }
  assert (Ec : countAndCheck (s0 :: SS) = Ok (count s0)) by (unfold countAndCheck; rewrite E; reflexivity).
  rewrite Ec; cbn [obind].
  assert (Hall : forall s, In s (s0 :: SS) -> count s = count s0).
  { rewrite forallb_forall in E; intros s' [->|Hs']; [reflexivity|]; apply Z.eqb_eq, E, Hs'. }
  inversion Hr as [|? [k0 t0] ? kts' H0 Hr']; subst; cbn [fst snd] in *.
  assert (Hb : 0 <= k0 < 2147483648 /\ len t0 < 4294967296 /\ k0 * len t0 < 4294967296) by (unfold repr in H0; tauto).
  rewrite (repr_itemSize _ _ _ H0) in *; rewrite (repr_count _ _ _ H0) in *; rewrite s32_small by lia.
  rewrite serie_n_mk by (pose proof (len_nonneg t0); lia).
  assert (Hin' : In s (s0 :: SS)) by (right; exact Hin); clear Hin Ec E Hr' H0.
  assert (Rz : rows_of_size k0 (zrows k0 (len t0))) by (apply rows_zrows; lia).
  assert (Lz : len (zrows k0 (len t0)) = len t0) by apply len_zrows, len_nonneg.
  revert Hall Hin' Rz Lz Hr; generalize (zrows k0 (len t0)) as z; generalize (s0 :: SS) as l; generalize ((k0, t0) :: kts') as kl.
  intros kl l; revert kl; induction l as [|s' l IH]; intros kl z Hall Hin Rz Lz Hr; [destruct Hin|].
  inversion Hr as [|? [k' t'] ? kl' H' Hr']; subst; cbn [fst snd] in *; cbn [foldO].
  pose proof (Hall s' (or_introl eq_refl)) as Ec; rewrite (repr_count _ _ _ H') in Ec.
  assert (Rk : repr (mk k0 z 3) k0 z) by (apply repr_mk; auto; rewrite ?Lz; lia).
  destruct (Z.eq_dec k' k0) as [->|Hk].
  - unfold sub at 1; rewrite (pointwise_ok _ (mk k0 z 3) s' k0 z t' Rk H') by congruence; cbn [obind].
    unfold serie_assign; cbn [s_ count_ dimension_ itemSize_ mk].
    fold (mk k0 (map2 (map2 n_sub) z t') 3).
    apply (IH kl'); auto.
    + intros s2' Hs2; apply Hall; right; exact Hs2.
    + destruct Hin as [->|Hin]; [|exact Hin]; rewrite (repr_itemSize _ _ _ H') in Hd; congruence.
    + apply rows_map2; [exact Rz|apply (repr_rows _ _ _ H')].
    + rewrite len_map2; congruence.
  - rewrite (proj2 (proj2 (C54_add_sub T NT (mk k0 z 3) s') ltac:(left; rewrite (repr_itemSize _ _ _ Rk), (repr_itemSize _ _ _ H'); congruence))).
    reflexivity.
Qed.
Print Assumptions C155_shapes.

Example C155_ex :
  let a := mk 2 [[1; 2]; [3; 4]]%R 3 in let b := mk 2 [[10; 20]; [30; 40]]%R 3 in
  one_shape [a; b] 2 2 [[[1; 2]; [3; 4]]; [[10; 20]; [30; 40]]]%R /\
  @add_of_sub_h R r_num [a; b] = Ok (mk 2 [[-(1 + 10); -(2 + 20)]; [-(3 + 30); -(4 + 40)]]%R 3) /\
  @add_of_sub_h R r_num [a] = Ok (mk 2 [[- (1); - (2)]; [- (3); - (4)]]%R 3) /\
  @add_of_sub_h R r_num [a; mk 2 [[10; 20]]%R 3] = Throw InvalidArgument /\
  @add_of_sub_h R r_num [a; mk 1 [[10]; [20]]%R 3] = Throw InvalidArgument.
Proof.
  intros a b.
  assert (Ha : repr a 2 [[1; 2]; [3; 4]]%R) by repr_ex. assert (Hb : repr b 2 [[10; 20]; [30; 40]]%R) by repr_ex.
  assert (S2 : one_shape [a; b] 2 2 [[[1; 2]; [3; 4]]; [[10; 20]; [30; 40]]]%R) by (repeat (constructor; [split; [assumption|reflexivity]|]); constructor).
  assert (S1 : one_shape [a] 2 2 [[[1; 2]; [3; 4]]]%R) by (repeat (constructor; [split; [assumption|reflexivity]|]); constructor).
  split; [exact S2|]. split; [apply (C155_exact a [b] 2 2 _ _ S2)|]. split; [apply (C155_exact a [] 2 2 _ _ S1)|].
  split; [apply (proj1 (C155_shapes R r_num a _)); eexists; split; [left; reflexivity|discriminate]|].
  apply (proj2 (C155_shapes R r_num a _)); [|eexists; split; [left; reflexivity|discriminate]].
  exists [(2, [[1; 2]; [3; 4]]%R); (1, [[10]; [20]]%R)]. constructor; [exact Ha|]. constructor; [repr_ex|]. constructor.
Qed.
