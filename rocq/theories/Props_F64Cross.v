(** * C116: the vector product in binary64. *)
From Verif Require Import Base Num Serie Spec BaseFacts SerieFacts Functional FunctionalFacts Utils Mathf MathFacts MinMaxFacts Views Stats StatsFacts Algebra AlgebraFacts.
From Verif Require Import F64 F64Facts F64Arith F64Round F64Sum RNum LinSpec Props_Functional Props_Algebra Props_F64Int.
From Flocq Require Import Core IEEE754.BinarySingleNaN.
From Coq Require Import Reals Lra Psatz.
Open Scope Z_scope.
Opaque f64_of_Z.

(** ** exchanging the operands changes the sign, bit for bit up to the sign of zero *)
Lemma sub_anti_zeq x y : zeq (f64_sub x y) (Bopp (f64_sub y x)).
Proof.
  destruct (f64_sub_anti x y) as [Z|E]; [|left; exact E].
  right; split; [exact Z|]; apply f64_sub_zero in Z; destruct Z as (Fx & Fy & E).
  assert (Z : is_zero (f64_sub y x)) by (apply f64_sub_zero; auto); destruct Z as [s ->]; exists (negb s); reflexivity.
Qed.
Lemma Forall2_map2 {A B C D} (P : C -> D -> Prop) (f : A -> B -> C) (g : B -> A -> D) :
  forall a b, (forall x y, In x a -> In y b -> P (f x y) (g y x)) -> Forall2 P (map2 f a b) (map2 g b a).
Proof.
  induction a as [|x a IH]; intros [|y b] H; cbn [map2]; try constructor; [apply H; left; reflexivity|].
  apply IH; intros; apply H; right; assumption.
Qed.
Theorem C116_antisymmetric :
  forall (L : Libm) (a b : Serie F64) ra rb,
  repr a 3 ra -> repr b 3 rb -> ra <> [] -> len ra = len rb ->
  exists p q, @cross F64 (f64_num L) a b = Ok (mk 3 p 3) /\ @cross F64 (f64_num L) b a = Ok (mk 3 q 3) /\
    Forall2 (Forall2 (fun x y => zeq x (Bopp y))) p q.
Proof.
  intros L a b ra rb Ha Hb Hne Hl.
  assert (Hne' : rb <> []) by (intros ->; destruct ra; [congruence|discriminate]).
  do 2 eexists; split; [apply (cross_ok F64 (f64_num L) a b ra rb); auto; unfold len in Hl; lia|].
  split; [apply (cross_ok F64 (f64_num L) b a rb ra); auto; unfold len in Hl; lia|].
  apply Forall2_map2; intros u v Hu Hv.
  pose proof (repr_rows _ _ _ Ha) as Ra; pose proof (repr_rows _ _ _ Hb) as Rb; unfold rows_of_size in Ra, Rb; rewrite Forall_forall in Ra, Rb.
  destruct (len3 u (Ra u Hu)) as (u0 & u1 & u2 & ->); destruct (len3 v (Rb v Hv)) as (v0 & v1 & v2 & ->).
  cbn [crossp n_sub n_mul f64_num].
  rewrite (f64_mul_comm v1 u2), (f64_mul_comm v2 u1), (f64_mul_comm v2 u0), (f64_mul_comm v0 u2), (f64_mul_comm v0 u1), (f64_mul_comm v1 u0).
  repeat (apply Forall2_cons; [apply sub_anti_zeq|]); apply Forall2_nil.
Qed.
Print Assumptions C116_antisymmetric.

(** ** a vector with itself: zero where the products are finite, NaN where they are not *)
Lemma sub_self (x : F64) : (is_finite x = true -> is_zero (f64_sub x x)) /\ (is_finite x = false -> f64_sub x x = B754_nan).
Proof.
  split; [intros F; apply f64_sub_zero; auto|].
  destruct x as [s|s| |s m e H]; try discriminate; intros _; [destruct s|]; reflexivity.
Qed.
Theorem C116_self_partial :
  forall (L : Libm) (a : Serie F64) ra,
  repr a 3 ra -> ra <> [] ->
  exists p, @cross F64 (f64_num L) a a = Ok (mk 3 p 3) /\ len p = len ra /\
  forall i u w, nth_error ra i = Some u -> nth_error p i = Some w ->
    ((forall x y, In x u -> In y u -> is_finite (f64_mul x y) = true) -> Forall is_zero w) /\
    Forall (fun x => is_zero x \/ x = B754_nan) w.
Proof.
  intros L a ra Ha Hne; eexists; split; [apply (cross_ok F64 (f64_num L) a a ra ra); auto|].
  split; [unfold len; f_equal; apply map2_length_le; lia|].
  intros i u w Eu Ew; rewrite (map2_nth_same _ _ _ _ (le_n _) _ _ Eu Eu) in Ew; injection Ew as <-.
  destruct (len3 u (rows_nth_len 3 _ _ _ (repr_rows _ _ _ Ha) Eu)) as (u0 & u1 & u2 & ->); cbn [crossp n_sub n_mul f64_num].
  rewrite (f64_mul_comm u2 u1), (f64_mul_comm u0 u2), (f64_mul_comm u1 u0); split.
  - intros H; repeat (apply Forall_cons; [apply sub_self, H; simpl; tauto|]); apply Forall_nil.
  - assert (S : forall x, is_zero (f64_sub x x) \/ f64_sub x x = B754_nan) by (intros x; destruct (sub_self x) as [A B]; destruct (is_finite x); auto).
    repeat (apply Forall_cons; [apply S|]); apply Forall_nil.
Qed.
Print Assumptions C116_self_partial.
(** a vector of finite components whose product with itself is not zero: (2^600, 2^600, 0) *)
Definition big : F64 := f64_of_Z (2 ^ 600).
Theorem C116_self_refuted :
  exists (a : Serie F64) u w, repr a 3 [u] /\ Forall (fun x => is_finite x = true) u /\
  @cross F64 F64N a a = Ok (mk 3 [w] 3) /\ ~ Forall is_zero w.
Proof.
  exists (mk 3 [[big; big; #0]] 3), [big; big; #0], (@crossp F64 F64N [big; big; #0] [big; big; #0]).
  split; [repr_ex|]; split; [repeat (apply Forall_cons; [vm_compute; reflexivity|]); apply Forall_nil|].
  split; [reflexivity|]; cbn [crossp].
  intros H; rewrite Forall_forall in H; destruct (H _ (or_intror (or_intror (or_introl eq_refl)))) as [s E].
  apply (f_equal is_finite) in E; vm_compute in E; discriminate E.
Qed.
Print Assumptions C116_self_refuted.

(** ** rounding error *)
Open Scope R_scope.
Definition mixed (u v : list R) : list R :=
  match u, v with
  | [a0; a1; a2], [b0; b1; b2] =>
      [Rabs (a1 * b2) + Rabs (a2 * b1); Rabs (a2 * b0) + Rabs (a0 * b2); Rabs (a0 * b1) + Rabs (a1 * b0)]
  | _, _ => []
  end.
Lemma two_products_err (x y z w : F64) : is_finite (f64_sub (f64_mul x y) (f64_mul z w)) = true ->
  Rabs (B2R (f64_sub (f64_mul x y) (f64_mul z w)) - (B2R x * B2R y - B2R z * B2R w))
  <= growth 2 * (Rabs (B2R x * B2R y) + Rabs (B2R z * B2R w)) + 2 * (1 + uu) * eta.
Proof.
  intros F; destruct (sub_inv _ _ F) as [F1 F2].
  destruct (sub_err _ _ F) as (e3 & B3 & E3); destruct (mul_err _ _ F1) as (e1 & h1 & B1 & H1 & E1); destruct (mul_err _ _ F2) as (e2 & h2 & B2 & H2 & E2).
  rewrite E3, E1, E2; set (P := B2R x * B2R y); set (Q := B2R z * B2R w).
  replace ((P * (1 + e1) + h1 - (Q * (1 + e2) + h2)) * (1 + e3) - (P - Q))
    with (P * (e1 + e3 + e1 * e3) - Q * (e2 + e3 + e2 * e3) + (h1 - h2) * (1 + e3)) by ring.
  pose proof uu_pos as U; pose proof eta_pos as T.
  assert (G : forall e e', Rabs e <= uu -> Rabs e' <= uu -> Rabs (e + e' + e * e') <= growth 2).
  { intros e e' He He'; unfold growth; cbn [pow]; apply Rabs_le; apply Rabs_le_inv in He, He'; split; nra. }
  assert (K : Rabs (1 + e3) <= 1 + uu) by (apply Rabs_le; apply Rabs_le_inv in B3; lra).
  assert (Hh : Rabs (h1 - h2) <= 2 * eta) by (apply Rabs_le; apply Rabs_le_inv in H1, H2; lra).
  pose proof (G e1 e3 B1 B3) as G1; pose proof (G e2 e3 B2 B3) as G2.
  eapply Rle_trans; [apply Rabs_triang|]; apply Rplus_le_compat.
  - unfold Rminus; eapply Rle_trans; [apply Rabs_triang|]; rewrite Rabs_Ropp, !Rabs_mult.
    pose proof (Rabs_pos P) as PP; pose proof (Rabs_pos Q) as PQ; fold P Q.
    pose proof (Rmult_le_compat_l _ _ _ PP G1); pose proof (Rmult_le_compat_l _ _ _ PQ G2); lra.
  - rewrite Rabs_mult; replace (2 * (1 + uu) * eta) with (2 * eta * (1 + uu)) by ring; apply Rmult_le_compat; auto using Rabs_pos.
Qed.

(** every finite component is as far from the exact one as two roundings allow, and so is the angle from a right angle *)
Theorem C116_error :
  forall (L : Libm) (a b : Serie F64) ra rb,
  repr a 3 ra -> repr b 3 rb -> ra <> [] -> len ra = len rb ->
  exists p, @cross F64 (f64_num L) a b = Ok (mk 3 p 3) /\ len p = len ra /\
  forall i u v w, nth_error ra i = Some u -> nth_error rb i = Some v -> nth_error p i = Some w ->
  Forall (fun x => is_finite x = true) w ->
  Forall2 (fun x e => Rabs x <= growth 2 * e + 2 * (1 + uu) * eta)
    (map2 Rminus (values w) (@crossp R r_num (values u) (values v))) (mixed (values u) (values v)) /\
  Rabs (inner (values u) (values w)) <= growth 2 * inner (map Rabs (values u)) (mixed (values u) (values v)) + 2 * (1 + uu) * eta * absum u /\
  Rabs (inner (values v) (values w)) <= growth 2 * inner (map Rabs (values v)) (mixed (values u) (values v)) + 2 * (1 + uu) * eta * absum v.
Proof.
  intros L a b ra rb Ha Hb Hne Hl.
  assert (Hl' : (length ra <= length rb)%nat) by (unfold len in Hl; lia).
  eexists; split; [apply (cross_ok F64 (f64_num L) a b ra rb Ha Hb Hne Hl')|].
  split; [unfold len; f_equal; apply map2_length_le; exact Hl'|].
  intros i u v w Eu Ev Ew F; rewrite (map2_nth_same _ _ _ _ Hl' _ _ Eu Ev) in Ew; injection Ew as <-.
  destruct (len3 u (rows_nth_len 3 _ _ _ (repr_rows _ _ _ Ha) Eu)) as (u0 & u1 & u2 & ->).
  destruct (len3 v (rows_nth_len 3 _ _ _ (repr_rows _ _ _ Hb) Ev)) as (v0 & v1 & v2 & ->).
  cbn [crossp map map2 mixed n_sub n_mul f64_num r_num] in *; unfold absum, inner, LinSpec.total; cbn [map map2 fold_right].
  rewrite Forall_forall in F; cbn [In] in F.
  pose proof (two_products_err u1 v2 u2 v1 (F _ (or_introl eq_refl))) as X0.
  pose proof (two_products_err u2 v0 u0 v2 (F _ (or_intror (or_introl eq_refl)))) as X1.
  pose proof (two_products_err u0 v1 u1 v0 (F _ (or_intror (or_intror (or_introl eq_refl))))) as X2; clear - X0 X1 X2.
  revert X0 X1 X2.
  generalize (B2R (f64_sub (f64_mul u1 v2) (f64_mul u2 v1))) as r0, (B2R (f64_sub (f64_mul u2 v0) (f64_mul u0 v2))) as r1, (B2R (f64_sub (f64_mul u0 v1) (f64_mul u1 v0))) as r2.
  generalize (B2R u0) as a0, (B2R u1) as a1, (B2R u2) as a2, (B2R v0) as b0, (B2R v1) as b1, (B2R v2) as b2.
  intros a0 a1 a2 b0 b1 b2 r0 r1 r2.
  set (c0 := a1 * b2 - a2 * b1); set (c1 := a2 * b0 - a0 * b2); set (c2 := a0 * b1 - a1 * b0).
  set (m0 := Rabs (a1 * b2) + Rabs (a2 * b1)); set (m1 := Rabs (a2 * b0) + Rabs (a0 * b2)); set (m2 := Rabs (a0 * b1) + Rabs (a1 * b0)).
  intros X0 X1 X2; split; [repeat (apply Forall2_cons; [assumption|]); apply Forall2_nil|].
  set (t := 2 * (1 + uu) * eta) in *.
  assert (K : forall x0 x1 x2, x0 * c0 + x1 * c1 + x2 * c2 = 0 ->
    Rabs (x0 * r0 + (x1 * r1 + (x2 * r2 + 0))) <= growth 2 * (Rabs x0 * m0 + (Rabs x1 * m1 + (Rabs x2 * m2 + 0))) + t * (Rabs x0 + (Rabs x1 + (Rabs x2 + 0)))).
  { intros x0 x1 x2 Z; replace (x0 * r0 + (x1 * r1 + (x2 * r2 + 0))) with (x0 * (r0 - c0) + (x1 * (r1 - c1) + x2 * (r2 - c2))) by lra.
    pose proof (Rmult_le_compat_l _ _ _ (Rabs_pos x0) X0) as Y0; pose proof (Rmult_le_compat_l _ _ _ (Rabs_pos x1) X1) as Y1; pose proof (Rmult_le_compat_l _ _ _ (Rabs_pos x2) X2) as Y2.
    rewrite <- Rabs_mult in Y0, Y1, Y2.
    pose proof (Rabs_triang (x0 * (r0 - c0)) (x1 * (r1 - c1) + x2 * (r2 - c2))); pose proof (Rabs_triang (x1 * (r1 - c1)) (x2 * (r2 - c2))); lra. }
  split; apply K; unfold c0, c1, c2; ring.
Qed.
Print Assumptions C116_error.

(** exact perpendicularity is false after rounding: u = (0, z, 1) and v = (z, 1, 0) with z = 2^27 + 1 *)
Theorem C116_orthogonal_refuted :
  exists (a b : Serie F64) u v w, repr a 3 [u] /\ repr b 3 [v] /\ @cross F64 F64N a b = Ok (mk 3 [w] 3) /\
  Forall (fun x => is_finite x = true) w /\ inner (values u) (values w) <> 0.
Proof.
  set (z := f64_of_Z (2 ^ 27 + 1)).
  exists (mk 3 [[#0; z; #1]] 3), (mk 3 [[z; #1; #0]] 3), [#0; z; #1], [z; #1; #0], (@crossp F64 F64N [#0; z; #1] [z; #1; #0]).
  split; [repr_ex|]; split; [repr_ex|]; split; [reflexivity|]; split.
  - cbn [crossp]; repeat (apply Forall_cons; [vm_compute; reflexivity|]); apply Forall_nil.
  - destruct (f64_of_Z_correct (2 ^ 27 + 1) ltac:(lia)) as (Ez & Fz & _); fold z in Ez, Fz.
    destruct (f64_of_Z_correct 0 ltac:(lia)) as (E0 & F0 & _); destruct (f64_of_Z_correct 1 ltac:(lia)) as (E1 & F1 & _).
    cbn [crossp map]; cbn [n_sub n_mul F64N f64_num].
    set (w1 := f64_sub (f64_mul #1 z) (f64_mul #0 #0)); set (w2 := f64_sub (f64_mul #0 #1) (f64_mul z z)).
    assert (W1 : B2R w1 = IZR (2 ^ 27 + 1)).
    { rewrite <- Ez; assert (Q : Beqb w1 z = true) by (vm_compute; reflexivity); assert (Fw : is_finite w1 = true) by (vm_compute; reflexivity).
      rewrite (Beqb_correct 53 1024 _ _ Fw Fz) in Q; destruct (Req_bool_spec (B2R w1) (B2R z)); [assumption|discriminate]. }
    assert (W2 : B2R w2 = (- IZR (2 ^ 54 + 2 ^ 28))%R).
    { rewrite <- (SF2R_B2SF 53 1024 w2); assert (S : B2SF w2 = SpecFloat.S754_finite true 4503599694479360 2) by (vm_compute; reflexivity); rewrite S.
      unfold SF2R, F2R; cbn [Fnum Fexp cond_Zopp bpow]; rewrite <- opp_IZR, <- mult_IZR; reflexivity. }
    unfold inner, LinSpec.total; cbn [map2 fold_right]; rewrite W1, W2, E0, Ez, E1.
    replace (0 * B2R (f64_sub (f64_mul z #0) (f64_mul #1 #1)) + (IZR (2 ^ 27 + 1) * IZR (2 ^ 27 + 1) + (1 * - IZR (2 ^ 54 + 2 ^ 28) + 0)))%R
      with (IZR ((2 ^ 27 + 1) * (2 ^ 27 + 1)) - IZR (2 ^ 54 + 2 ^ 28)) by (rewrite mult_IZR; ring).
    rewrite <- minus_IZR; apply IZR_neq; discriminate.
Qed.
Print Assumptions C116_orthogonal_refuted.

Example C116_ex :
  match @cross F64 F64N (mk 3 [[#1; #2; #3]] 3) (mk 3 [[#4; #5; #6]] 3), @cross F64 F64N (mk 3 [[#1; #2; #3]] 3) (mk 3 [[#1; #2; #3]] 3) with
  | Ok p, Ok q => forallb (fun ab => Beqb (fst ab) (snd ab)) (combine (s_ p) [#(-3); #6; #(-3)]) = true /\ map (@B2SF 53 1024) (s_ q) = [SpecFloat.S754_zero false; SpecFloat.S754_zero false; SpecFloat.S754_zero false]
  | _, _ => False
  end.
Proof. split; vm_compute; reflexivity. Qed.
