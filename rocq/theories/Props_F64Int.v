(** * C115: on small whole numbers the binary64 results are exact. *)
From Verif Require Import Base Num Serie Spec BaseFacts SerieFacts Functional FunctionalFacts Utils Mathf MathFacts MinMaxFacts Views Stats StatsFacts Algebra AlgebraFacts.
From Verif Require Import F64 F64Facts F64Arith F64Round F64Sum RNum LinSpec Props_Functional Props_AddSub Props_MultDiv Props_Algebra Props_Det.
From Flocq Require Import Core IEEE754.BinarySingleNaN.
From Coq Require Import Reals Lra Psatz.
Open Scope Z_scope.
Opaque f64_of_Z.

(** a finite double, a whole number of absolute value at most B *)
Definition whole (B : Z) (x : F64) : Prop := is_finite x = true /\ exists n, B2R x = IZR n /\ Z.abs n <= B.
(** a finite double of a given value *)
Definition is_real (x : F64) (r : R) : Prop := is_finite x = true /\ B2R x = r.

Lemma int_range n : Z.abs n <= 2 ^ 53 -> in_range (IZR n).
Proof. intros H; unfold in_range; rewrite (rnd_int n H); apply int_lt_emax; exact H. Qed.

Section Ops.
  Variables x y : F64.
  Variables a b : Z.
  Hypothesis Hx : is_real x (IZR a).
  Hypothesis Hy : is_real y (IZR b).
  Lemma int_add : Z.abs (a + b) <= 2 ^ 53 -> is_real (f64_add x y) (IZR (a + b)).
  Proof.
    intros H; destruct Hx as [Fx Ex]; destruct Hy as [Fy Ey].
    destruct (add_ok x y Fx Fy) as [E F]; rewrite Ex, Ey, <- plus_IZR in *; [apply int_range; exact H|].
    split; [exact F|]; rewrite E; apply rnd_int; exact H.
  Qed.
  Lemma int_sub : Z.abs (a - b) <= 2 ^ 53 -> is_real (f64_sub x y) (IZR (a - b)).
  Proof.
    intros H; destruct Hx as [Fx Ex]; destruct Hy as [Fy Ey].
    destruct (sub_ok x y Fx Fy) as [E F]; rewrite Ex, Ey, <- minus_IZR in *; [apply int_range; exact H|].
    split; [exact F|]; rewrite E; apply rnd_int; exact H.
  Qed.
  Lemma int_mul : Z.abs (a * b) <= 2 ^ 53 -> is_real (f64_mul x y) (IZR (a * b)).
  Proof.
    intros H; destruct Hx as [Fx Ex]; destruct Hy as [Fy Ey].
    destruct (mul_ok x y Fx Fy) as [E F]; rewrite Ex, Ey, <- mult_IZR in *; [apply int_range; exact H|].
    split; [exact F|]; rewrite E; apply rnd_int; exact H.
  Qed.
End Ops.

Lemma real_zero : is_real (f64_of_Z 0) (IZR 0).
Proof. destruct (f64_of_Z_correct 0 ltac:(lia)) as (E & F & _); split; assumption. Qed.
Lemma abs_mul_le a b B C : Z.abs a <= B -> Z.abs b <= C -> Z.abs (a * b) <= B * C.
Proof. intros; rewrite Z.abs_mul; apply Z.mul_le_mono_nonneg; lia. Qed.

(** sum of products, left to right *)
Lemma int_sum_prod B : 0 <= B -> forall u v (acc : F64) c, length u = length v -> Forall (whole B) u -> Forall (whole B) v ->
  is_real acc (IZR c) -> Z.abs c + Z.of_nat (length u) * (B * B) <= 2 ^ 53 ->
  is_real (fold_left f64_add (map2 f64_mul u v) acc) (IZR c + inner (map (@B2R 53 1024) u) (map (@B2R 53 1024) v))%R.
Proof.
  intros HB u; induction u as [|x u IH]; intros [|y v] acc c L Hu Hv Ha Hb; try discriminate.
  - cbn [map2 fold_left map inner]; unfold inner, LinSpec.total; cbn; replace (IZR c + 0)%R with (IZR c) by ring; exact Ha.
  - inversion Hu as [|? ? [Fx (a & Ex & Bx)] Hu']; inversion Hv as [|? ? [Fy (b & Ey & By)] Hv']; subst.
    pose proof (abs_mul_le a b B B Bx By) as Hab; cbn [length] in Hb; rewrite Nat2Z.inj_succ in Hb.
    assert (N0 : 0 <= Z.of_nat (length u)) by lia; assert (B0 : 0 <= B * B) by nia.
    assert (P0 : 0 <= Z.of_nat (length u) * (B * B)) by (apply Z.mul_nonneg_nonneg; assumption).
    pose proof (int_mul x y a b (conj Fx Ex) (conj Fy Ey) ltac:(nia)) as Hm.
    pose proof (int_add acc (f64_mul x y) c (a * b) Ha Hm ltac:(nia)) as Hs.
    cbn [map2 fold_left map].
    replace (IZR c + inner (B2R x :: map (@B2R 53 1024) u) (B2R y :: map (@B2R 53 1024) v))%R
      with (IZR (c + a * b) + inner (map (@B2R 53 1024) u) (map (@B2R 53 1024) v))%R.
    + apply IH; auto; nia.
    + rewrite plus_IZR, mult_IZR, Ex, Ey; unfold inner, LinSpec.total; cbn [map2 fold_right]; ring.
Qed.

Notation values := (map (@B2R 53 1024)).
Definition wholes (B : Z) (rows : list (list F64)) : Prop := Forall (Forall (whole B)) rows.

Lemma wholes_nth B rows i u : wholes B rows -> nth_error rows i = Some u -> Forall (whole B) u.
Proof. intros H E; unfold wholes in H; rewrite Forall_forall in H; apply H, (nth_error_In _ _ E). Qed.

(** ** sum, difference, product of two Series *)
Section Two.
  Variable f : F64 -> F64 -> F64.
  Variable g : R -> R -> R.
  Variable B : Z.
  Hypothesis Hf : forall x y, whole B x -> whole B y -> is_real (f x y) (g (B2R x) (B2R y)).
  Lemma exact_row u : forall v, Forall (whole B) u -> Forall (whole B) v ->
    Forall (fun x => is_finite x = true) (map2 f u v) /\ values (map2 f u v) = map2 g (values u) (values v).
  Proof.
    induction u as [|x u IH]; intros [|y v] Hu Hv; cbn [map2 map]; try (split; [constructor|reflexivity]).
    inversion Hu; inversion Hv; subst; destruct (IH v) as [F E]; auto; destruct (Hf x y) as [F1 E1]; auto.
    split; [constructor; assumption|f_equal; assumption].
  Qed.
  Lemma exact_rows ra : forall rb, wholes B ra -> wholes B rb ->
    Forall (Forall (fun x => is_finite x = true)) (map2 (map2 f) ra rb) /\
    map values (map2 (map2 f) ra rb) = map2 (map2 g) (map values ra) (map values rb).
  Proof.
    induction ra as [|u ra IH]; intros [|v rb] Hu Hv; cbn [map2 map]; try (split; [constructor|reflexivity]).
    inversion Hu; inversion Hv; subst; destruct (IH rb) as [F E]; auto; destruct (exact_row u v) as [F1 E1]; auto.
    split; [constructor; assumption|f_equal; assumption].
  Qed.
End Two.

Lemma whole_add B x y : B <= 2 ^ 52 -> whole B x -> whole B y -> is_real (f64_add x y) (B2R x + B2R y).
Proof. intros HB [Fx (a & Ex & Ba)] [Fy (b & Ey & Bb)]; rewrite Ex, Ey, <- plus_IZR; apply int_add; try (split; assumption); lia. Qed.
Lemma whole_sub B x y : B <= 2 ^ 52 -> whole B x -> whole B y -> is_real (f64_sub x y) (B2R x - B2R y).
Proof. intros HB [Fx (a & Ex & Ba)] [Fy (b & Ey & Bb)]; rewrite Ex, Ey, <- minus_IZR; apply int_sub; try (split; assumption); lia. Qed.
Lemma whole_mul B x y : B <= 2 ^ 26 -> whole B x -> whole B y -> is_real (f64_mul x y) (B2R x * B2R y).
Proof.
  intros HB [Fx (a & Ex & Ba)] [Fy (b & Ey & Bb)]; rewrite Ex, Ey, <- mult_IZR; apply int_mul; try (split; assumption).
  pose proof (abs_mul_le a b (2 ^ 26) (2 ^ 26) ltac:(lia) ltac:(lia)); lia.
Qed.

(** the values of the result are the values of the exact operation on the values of the operands *)
Definition exactly (s : Serie F64) (k : Z) (vals : list (list R)) : Prop :=
  exists rows, s = mk k rows 3 /\ Forall (Forall (fun x => is_finite x = true)) rows /\ map values rows = vals.

Theorem C115_add_sub :
  forall (L : Libm) (a b : Serie F64) k ra rb B,
  repr a k ra -> repr b k rb -> len ra = len rb -> wholes B ra -> wholes B rb -> B <= 2 ^ 52 ->
  exists p m, @add F64 (f64_num L) a b = Ok p /\ @sub F64 (f64_num L) a b = Ok m /\
    exactly p k (map2 (map2 Rplus) (map values ra) (map values rb)) /\
    exactly m k (map2 (map2 Rminus) (map values ra) (map values rb)).
Proof.
  intros L a b k ra rb B Ha Hb Hl Wa Wb HB.
  destruct (C54_add_sub F64 (f64_num L) a b) as [H _]; destruct (H k ra rb Ha Hb Hl) as [E1 E2].
  do 2 eexists; split; [exact E1|]; split; [exact E2|]; cbn [n_add n_sub f64_num]; split; eexists; (split; [reflexivity|]).
  - apply (exact_rows f64_add Rplus B); auto; intros x y; apply whole_add; exact HB.
  - apply (exact_rows f64_sub Rminus B); auto; intros x y; apply whole_sub; exact HB.
Qed.
Print Assumptions C115_add_sub.

Theorem C115_mult :
  forall (L : Libm) (a b : Serie F64) k ra rb B,
  repr a k ra -> repr b k rb -> 2 <= k -> ra <> [] -> len ra = len rb -> wholes B ra -> wholes B rb -> B <= 2 ^ 26 ->
  exists p, @mult_serie F64 (f64_num L) a b = Ok p /\ exactly p k (map2 (map2 Rmult) (map values ra) (map values rb)).
Proof.
  intros L a b k ra rb B Ha Hb Hk Hne Hl Wa Wb HB.
  destruct (C59_by_serie F64 (f64_num L) a b) as (_ & _ & H); eexists; split; [apply (H k ra rb); assumption|].
  cbn [n_mul f64_num]; eexists; split; [reflexivity|]; apply (exact_rows f64_mul Rmult B); auto; intros x y; apply whole_mul; exact HB.
Qed.
Print Assumptions C115_mult.

(** ** dot product *)
Lemma sum_prod_whole (L : Libm) B u v : 0 <= B -> length u = length v -> Forall (whole B) u -> Forall (whole B) v -> len u * (B * B) <= 2 ^ 53 ->
  is_real (@sum_prod F64 (f64_num L) u v) (inner (values u) (values v)).
Proof.
  intros HB Hl Hu Hv Hb; unfold sum_prod; cbn [n_add n_mul n_of_Z f64_num].
  replace (inner (values u) (values v)) with (0 + inner (values u) (values v))%R by ring.
  apply (int_sum_prod B HB u v (f64_of_Z 0) 0); auto using real_zero.
Qed.
Theorem C115_dot :
  forall (L : Libm) (a b : Serie F64) k ra rb B,
  repr a k ra -> repr b k rb -> ra <> [] -> len ra = len rb -> wholes B ra -> wholes B rb -> 0 <= B -> k * (B * B) <= 2 ^ 53 ->
  exists p, @dot F64 (f64_num L) a b = Ok p /\ exactly p 1 (col (map2 inner (map values ra) (map values rb))).
Proof.
  intros L a b k ra rb B Ha Hb Hne Hl Wa Wb HB Hk; eexists; split; [apply (dot_ok F64 (f64_num L) a b k ra rb); auto; unfold len in Hl; lia|].
  eexists; split; [reflexivity|].
  pose proof (repr_rows _ _ _ Ha) as Ra; pose proof (repr_rows _ _ _ Hb) as Rb; clear Ha Hb Hne.
  revert rb Hl Wb Rb; induction ra as [|u ra IH]; intros [|v rb] Hl Wb Rb; cbn [map2 map col]; try (split; [constructor|reflexivity]).
  inversion Wa; inversion Wb; inversion Ra as [|? ? Lu Ra']; inversion Rb as [|? ? Lv Rb']; subst.
  destruct (IH ltac:(assumption) Ra' rb) as [F E]; auto; [unfold len in *; cbn [length] in Hl; lia|].
  destruct (sum_prod_whole L B u v) as [F1 E1]; auto; [unfold len in *; lia|].
  split; [constructor; [constructor; [exact F1|constructor]|exact F]|].
  unfold col in *; cbn [map]; f_equal; [rewrite E1; reflexivity|exact E].
Qed.
Print Assumptions C115_dot.

(** ** cross product: orthogonality and area, with no rounding error *)
Lemma cross_whole (L : Libm) B u v : B <= 2 ^ 26 -> len u = 3 -> len v = 3 -> Forall (whole B) u -> Forall (whole B) v ->
  Forall (fun x => is_finite x = true) (@crossp F64 (f64_num L) u v) /\
  values (@crossp F64 (f64_num L) u v) = @crossp R r_num (values u) (values v).
Proof.
  intros HB Lu Lv Hu Hv.
  destruct (len3 u Lu) as (u0 & u1 & u2 & ->); destruct (len3 v Lv) as (v0 & v1 & v2 & ->).
  assert (P : forall x y z w, whole B x -> whole B y -> whole B z -> whole B w ->
    is_real (f64_sub (f64_mul x y) (f64_mul z w)) (B2R x * B2R y - B2R z * B2R w)).
  { intros x y z w [Fx (a & Ex & Ba)] [Fy (b & Ey & Bb)] [Fz (c & Ez & Bc)] [Fw (d & Ew & Bd)].
    rewrite Ex, Ey, Ez, Ew, <- !mult_IZR, <- minus_IZR.
    pose proof (abs_mul_le a b (2 ^ 26) (2 ^ 26) ltac:(lia) ltac:(lia)); pose proof (abs_mul_le c d (2 ^ 26) (2 ^ 26) ltac:(lia) ltac:(lia)).
    change (2 ^ 26 * 2 ^ 26) with (2 ^ 52) in *.
    apply int_sub; [apply int_mul; try (split; assumption); lia|apply int_mul; try (split; assumption); lia|].
    change (2 ^ 53) with (2 ^ 52 + 2 ^ 52); lia. }
  repeat match goal with H : Forall _ (_ :: _) |- _ => inversion H; clear H; subst end.
  unfold crossp; cbn [map]; cbn [n_sub n_mul f64_num r_num].
  split.
  - repeat (apply Forall_cons; [apply P; assumption|]); apply Forall_nil.
  - repeat match goal with |- context [B2R (f64_sub (f64_mul ?x ?y) (f64_mul ?z ?w))] => rewrite (proj2 (P x y z w ltac:(assumption) ltac:(assumption) ltac:(assumption) ltac:(assumption))) end; reflexivity.
Qed.
Theorem C115_cross :
  forall (L : Libm) (a b : Serie F64) ra rb B,
  repr a 3 ra -> repr b 3 rb -> ra <> [] -> len ra = len rb -> wholes B ra -> wholes B rb -> B <= 2 ^ 26 ->
  exists rows, @cross F64 (f64_num L) a b = Ok (mk 3 rows 3) /\ len rows = len ra /\
  forall i u v w, nth_error ra i = Some u -> nth_error rb i = Some v -> nth_error rows i = Some w ->
    Forall (fun x => is_finite x = true) w /\
    (forall x, len x = 3 -> inner (values w) x = determinant 3 (full 3 (values u ++ values v ++ x))).
Proof.
  intros L a b ra rb B Ha Hb Hne Hl Wa Wb HB; eexists; split; [apply (cross_ok F64 (f64_num L) a b ra rb); auto; unfold len in Hl; lia|].
  assert (Hl' : (length ra <= length rb)%nat) by (unfold len in Hl; lia).
  split; [unfold len; f_equal; apply map2_length_le; exact Hl'|].
  intros i u v w Eu Ev Ew; rewrite (map2_nth_same _ _ _ _ Hl' _ _ Eu Ev) in Ew; injection Ew as <-.
  pose proof (rows_nth_len 3 _ _ _ (repr_rows _ _ _ Ha) Eu) as Lu; pose proof (rows_nth_len 3 _ _ _ (repr_rows _ _ _ Hb) Ev) as Lv.
  destruct (cross_whole L B u v HB Lu Lv (wholes_nth _ _ _ _ Wa Eu) (wholes_nth _ _ _ _ Wb Ev)) as [F E].
  split; [exact F|]; intros x Lx; rewrite E.
  destruct (len3 u Lu) as (u0 & u1 & u2 & ->); destruct (len3 v Lv) as (v0 & v1 & v2 & ->); destruct (len3 x Lx) as (x0 & x1 & x2 & ->).
  unfold crossp, inner; det_unfold; unfold full; cbn; ring.
Qed.
Print Assumptions C115_cross.

(** ** determinant *)
Section Det.
  Context {T : Type} {NT : Num T}.
  Lemma det_item_2 a b c d : @squaredMatrix T NT [a; b; c; d] = Ok {| m_data := [a; b; c; d]; m_alive := true; m_m := 2 |} ->
    det_item 4 2 [a; b; c; d] = Ok [n_sub (n_mul a d) (n_mul b c)].
  Proof.
    intros E; unfold det_item; cbn [Z.eqb Pos.eqb orb andb]; change (len [a; b; c; d] =? 3) with false; cbv iota.
    rewrite E; reflexivity.
  Qed.
  Lemma det_item_3 a b c d e f g h i : @squaredMatrix T NT [a; b; c; d; e; f; g; h; i] = Ok {| m_data := [a; b; c; d; e; f; g; h; i]; m_alive := true; m_m := 3 |} ->
    det_item 9 3 [a; b; c; d; e; f; g; h; i] =
    Ok [n_sub (n_add (n_add (n_sub (n_sub (n_mul (n_mul a e) i) (n_mul (n_mul a f) h)) (n_mul (n_mul b d) i)) (n_mul (n_mul b f) g)) (n_mul (n_mul c d) h)) (n_mul (n_mul c e) g)].
  Proof.
    intros E; unfold det_item; cbn [Z.eqb Pos.eqb orb andb]; change (len [a; b; c; d; e; f; g; h; i] =? 6) with false; cbv iota.
    rewrite E; reflexivity.
  Qed.
End Det.
Lemma trunc_root_4 : Btrunc (f64_sqrt (f64_of_Z 4)) = 2 /\ is_finite (f64_sqrt (f64_of_Z 4)) = true.
Proof. split; vm_compute; reflexivity. Qed.
Lemma trunc_root_9 : Btrunc (f64_sqrt (f64_of_Z 9)) = 3 /\ is_finite (f64_sqrt (f64_of_Z 9)) = true.
Proof. split; vm_compute; reflexivity. Qed.
Lemma squaredMatrix_f64 (L : Libm) n v : (n = 2 \/ n = 3) -> len v = n * n ->
  @squaredMatrix F64 (f64_num L) v = Ok {| m_data := v; m_alive := true; m_m := n |}.
Proof.
  intros Hn Lv; unfold squaredMatrix, n_to_u32; cbn [n_to_Z n_sqrt n_of_Z f64_num]; rewrite Lv.
  destruct trunc_root_4 as [E4 F4]; destruct trunc_root_9 as [E9 F9].
  destruct Hn as [-> | ->]; [change (2 * 2) with 4; rewrite F4, E4|change (3 * 3) with 9; rewrite F9, E9]; reflexivity.
Qed.

Lemma int3 B x y z a b c : 0 <= B <= 2 ^ 16 -> is_real x (IZR a) -> is_real y (IZR b) -> is_real z (IZR c) -> Z.abs a <= B -> Z.abs b <= B -> Z.abs c <= B ->
  is_real (f64_mul (f64_mul x y) z) (IZR (a * b * c)) /\ Z.abs (a * b * c) <= 2 ^ 48.
Proof.
  intros HB Hx Hy Hz Ba Bb Bc.
  pose proof (abs_mul_le a b (2 ^ 16) (2 ^ 16) ltac:(lia) ltac:(lia)) as H1; change (2 ^ 16 * 2 ^ 16) with (2 ^ 32) in H1.
  pose proof (abs_mul_le (a * b) c (2 ^ 32) (2 ^ 16) H1 ltac:(lia)) as H2; change (2 ^ 32 * 2 ^ 16) with (2 ^ 48) in H2.
  split; [|exact H2]; apply int_mul; [apply int_mul; auto; lia|exact Hz|lia].
Qed.

Lemma det2_whole B (a b c d : F64) : 0 <= B <= 2 ^ 16 -> Forall (whole B) [a; b; c; d] ->
  is_real (f64_sub (f64_mul a d) (f64_mul b c)) (B2R a * B2R d - B2R b * B2R c).
Proof.
  intros HB H; assert (P : forall x, In x [a; b; c; d] -> whole B x) by (rewrite <- Forall_forall; exact H); clear H.
  destruct (P a ltac:(simpl; tauto)) as [Fa (na & Ea & Ba)]; destruct (P b ltac:(simpl; tauto)) as [Fb (nb & Eb & Bb)];
  destruct (P c ltac:(simpl; tauto)) as [Fc (nc & Ec & Bc)]; destruct (P d ltac:(simpl; tauto)) as [Fd (nd & Ed & Bd)].
  pose proof (abs_mul_le na nd (2 ^ 16) (2 ^ 16) ltac:(lia) ltac:(lia)) as H5; change (2 ^ 16 * 2 ^ 16) with (2 ^ 32) in H5.
  pose proof (abs_mul_le nb nc (2 ^ 16) (2 ^ 16) ltac:(lia) ltac:(lia)) as H6; change (2 ^ 16 * 2 ^ 16) with (2 ^ 32) in H6.
  rewrite Ea, Eb, Ec, Ed, <- !mult_IZR, <- minus_IZR.
  apply int_sub; [apply int_mul; try (split; assumption); lia|apply int_mul; try (split; assumption); lia|lia].
Qed.
Lemma det3_whole B (a b c d e f g h i : F64) : 0 <= B <= 2 ^ 16 -> Forall (whole B) [a; b; c; d; e; f; g; h; i] ->
  is_real (f64_sub (f64_add (f64_add (f64_sub (f64_sub (f64_mul (f64_mul a e) i) (f64_mul (f64_mul a f) h)) (f64_mul (f64_mul b d) i)) (f64_mul (f64_mul b f) g)) (f64_mul (f64_mul c d) h)) (f64_mul (f64_mul c e) g))
    (B2R a * B2R e * B2R i - B2R a * B2R f * B2R h - B2R b * B2R d * B2R i + B2R b * B2R f * B2R g + B2R c * B2R d * B2R h - B2R c * B2R e * B2R g).
Proof.
  intros HB H; assert (P : forall x, In x [a; b; c; d; e; f; g; h; i] -> whole B x) by (rewrite <- Forall_forall; exact H); clear H.
  destruct (P a ltac:(simpl; tauto)) as [Fa (na & Ea & Ba)]; destruct (P b ltac:(simpl; tauto)) as [Fb (nb & Eb & Bb)];
  destruct (P c ltac:(simpl; tauto)) as [Fc (nc & Ec & Bc)]; destruct (P d ltac:(simpl; tauto)) as [Fd (nd & Ed & Bd)];
  destruct (P e ltac:(simpl; tauto)) as [Fe (ne & Ee & Be)]; destruct (P f ltac:(simpl; tauto)) as [Ff (nf & Ef & Bf)];
  destruct (P g ltac:(simpl; tauto)) as [Fg (ng & Eg & Bg)]; destruct (P h ltac:(simpl; tauto)) as [Fh (nh & Eh & Bh)];
  destruct (P i ltac:(simpl; tauto)) as [Fi (ni & Ei & Bi)]; clear P.
  destruct (int3 B a e i na ne ni HB (conj Fa Ea) (conj Fe Ee) (conj Fi Ei) Ba Be Bi) as [R1 L1].
  destruct (int3 B a f h na nf nh HB (conj Fa Ea) (conj Ff Ef) (conj Fh Eh) Ba Bf Bh) as [R2 L2].
  destruct (int3 B b d i nb nd ni HB (conj Fb Eb) (conj Fd Ed) (conj Fi Ei) Bb Bd Bi) as [R3 L3].
  destruct (int3 B b f g nb nf ng HB (conj Fb Eb) (conj Ff Ef) (conj Fg Eg) Bb Bf Bg) as [R4 L4].
  destruct (int3 B c d h nc nd nh HB (conj Fc Ec) (conj Fd Ed) (conj Fh Eh) Bc Bd Bh) as [R5 L5].
  destruct (int3 B c e g nc ne ng HB (conj Fc Ec) (conj Fe Ee) (conj Fg Eg) Bc Be Bg) as [R6 L6].
  rewrite Ea, Eb, Ec, Ed, Ee, Ef, Eg, Eh, Ei, <- !mult_IZR, <- !minus_IZR, <- !plus_IZR, <- minus_IZR.
  clear - R1 R2 R3 R4 R5 R6 L1 L2 L3 L4 L5 L6.
  repeat match goal with H : is_real ?x (IZR ?n) |- _ => generalize dependent n; generalize dependent x end.
  intros; repeat first [apply int_sub | apply int_add]; auto; lia.
Qed.

Theorem C115_det :
  forall (L : Libm) (s : Serie F64) n rows B,
  (n = 2 \/ n = 3)%nat -> repr s (Z.of_nat (n * n)) rows -> dimension s = Z.of_nat n -> rows <> [] -> wholes B rows -> 0 <= B <= 2 ^ 16 ->
  exists p, @det F64 (f64_num L) s = Ok p /\ exactly p 1 (col (map (fun v => determinant n (full n v)) (map values rows))).
Proof.
  intros L s n rows B Hn Hs Hd Hne HW HB; pose proof (repr_rows _ _ _ Hs) as Rr; unfold rows_of_size in Rr; rewrite Forall_forall in Rr.
  set (k := Z.of_nat (n * n)) in *; set (N := Z.of_nat n) in *.
  assert (Item : forall v, len v = k -> Forall (whole B) v -> exists d, @det_item F64 (f64_num L) k N v = Ok [d] /\ is_real d (determinant n (full n (values v)))).
  { intros v Lv Hv; subst k N; destruct Hn as [-> | ->].
    - change (Z.of_nat (2 * 2)) with 4 in *; change (Z.of_nat 2) with 2 in *.
      destruct (len4 v Lv) as (a & b & c & d & ->); rewrite (det_item_2 a b c d) by (apply squaredMatrix_f64; auto).
      eexists; split; [reflexivity|]; cbn [n_sub n_mul f64_num map].
      match goal with |- is_real _ ?r => replace r with (B2R a * B2R d - B2R b * B2R c)%R by (det_unfold; unfold full; cbn [nth Nat.mul Nat.add]; cbn; ring) end.
      apply (det2_whole B); assumption.
    - change (Z.of_nat (3 * 3)) with 9 in *; change (Z.of_nat 3) with 3 in *.
      destruct (len9 v Lv) as (a & b & c & d & e & f & g & h & i & ->); rewrite (det_item_3 a b c d e f g h i) by (apply squaredMatrix_f64; auto).
      eexists; split; [reflexivity|]; cbn [n_sub n_add n_mul f64_num map].
      pose proof (det3_whole B a b c d e f g h i HB Hv) as D.
      match goal with |- is_real _ ?r => match type of D with is_real _ ?q => replace r with q; [exact D|] end end.
      clear; generalize (B2R a), (B2R b), (B2R c), (B2R d), (B2R e), (B2R f), (B2R g), (B2R h), (B2R i); intros.
      det_unfold; unfold full; cbn; ring. }
  unfold det; rewrite (isValid_repr _ _ _ Hs); replace (0 <? k) with true by (subst k; destruct Hn as [-> | ->]; reflexivity); cbn [negb].
  cbv zeta.
  assert (Ei : itemSize (serie_copy s) = k) by (rewrite <- (repr_itemSize _ _ _ Hs); reflexivity).
  assert (Ed : dimension (serie_copy s) = N) by (rewrite <- Hd; reflexivity).
  rewrite Ei, Ed.
  set (g := fun v => match @det_item F64 (f64_num L) k N v with Ok r => r | _ => [] end).
  rewrite (map_rows_ok s _ rows (@det_item F64 (f64_num L) k N) g 1 Hs Hne ltac:(lia)).
  2:{ intros v Hv; unfold wholes in HW; rewrite Forall_forall in HW; destruct (Item v (Rr v Hv) (HW v Hv)) as (d & E & _); unfold g; rewrite E; split; reflexivity. }
  eexists; split; [reflexivity|]; eexists; split; [reflexivity|]; clear Hs Hne Ei Ed.
  induction rows as [|v rows IH]; cbn [map col]; [split; [constructor|reflexivity]|].
  inversion HW; subst; destruct IH as [F E]; [assumption|intros; apply Rr; right; assumption|].
  destruct (Item v (Rr v (or_introl eq_refl)) ltac:(assumption)) as (d & Ed & Fd & Vd).
  unfold g at 1 3; rewrite Ed; split; [constructor; [constructor; [exact Fd|constructor]|exact F]|].
  unfold col in *; cbn [map]; f_equal; [rewrite Vd; reflexivity|exact E].
Qed.
Print Assumptions C115_det.

(** ** mean: one rounding only *)
Lemma int_sum B : 0 <= B -> forall xs (acc : F64) c, Forall (whole B) xs -> is_real acc (IZR c) -> Z.abs c + len xs * B <= 2 ^ 53 ->
  exists n, is_real (fold_left f64_add xs acc) (IZR n) /\ IZR n = (IZR c + LinSpec.total (values xs))%R /\ Z.abs n <= Z.abs c + len xs * B.
Proof.
  intros HB xs; induction xs as [|x xs IH]; intros acc c Hx Ha Hb.
  - exists c; cbn [fold_left map]; unfold LinSpec.total; cbn [fold_right]; split; [exact Ha|]; split; [ring|unfold len; simpl; lia].
  - inversion Hx as [|? ? [Fx (a & Ex & Bx)] Hx']; subst.
    assert (E : len (x :: xs) * B = B + len xs * B) by (unfold len; cbn [length]; rewrite Nat2Z.inj_succ; ring).
    assert (P : 0 <= len xs * B) by (apply Z.mul_nonneg_nonneg; unfold len; lia).
    pose proof (int_add acc x c a Ha (conj Fx Ex) ltac:(lia)) as Hs.
    destruct (IH (f64_add acc x) (c + a) Hx' Hs ltac:(lia)) as (n & Hn & En & Bn).
    exists n; cbn [fold_left map]; split; [exact Hn|]; split; [|lia].
    rewrite En, plus_IZR, <- Ex; unfold LinSpec.total; cbn [fold_right]; ring.
Qed.
Theorem C115_mean :
  forall (L : Libm) (s : Serie F64) xs B,
  repr s 1 (col xs) -> xs <> [] -> Forall (whole B) xs -> 0 <= B -> len xs * B <= 2 ^ 53 -> len xs <= 2 ^ 53 ->
  exists m, @mean F64 (f64_num L) s = Ok (Number m) /\ is_finite m = true /\ B2R m = rnd (LinSpec.total (values xs) / IZR (len xs)).
Proof.
  intros L s xs B Hs Hne Hx HB Hb Hl; rewrite (@mean_scalar F64 (f64_num L) s xs Hs); eexists; split; [reflexivity|].
  cbn [n_add n_div n_of_Z f64_num].
  destruct (int_sum B HB xs (f64_of_Z 0) 0 Hx real_zero ltac:(lia)) as (n & [Fn En] & Et & Bn).
  assert (L1 : 1 <= len xs) by (destruct xs; [congruence|unfold len; cbn [length]; lia]).
  destruct (f64_of_Z_correct (len xs) ltac:(lia)) as (El & Fl & _).
  replace (LinSpec.total (values xs)) with (IZR n) by (rewrite Et; ring).
  assert (I1 : (1 <= IZR (len xs))%R) by (apply (IZR_le 1); exact L1).
  destruct (div_ok (fold_left f64_add xs (f64_of_Z 0)) (f64_of_Z (len xs)) Fn) as [D1 D2].
  - rewrite El; lra.
  - rewrite En, El; apply (range_abs (fold_left f64_add xs (f64_of_Z 0))); rewrite En.
    unfold Rdiv; rewrite Rabs_mult, (Rabs_pos_eq (/ IZR (len xs))) by (apply Rlt_le, Rinv_0_lt_compat; lra).
    rewrite <- (Rmult_1_r (Rabs (IZR n))) at 2; apply Rmult_le_compat_l; [apply Rabs_pos|].
    rewrite <- Rinv_1; apply Rinv_le_contravar; lra.
  - split; [exact D2|]; rewrite D1, En, El; reflexivity.
Qed.
Print Assumptions C115_mean.

(** beyond 2^53 the sum of two whole numbers is rounded *)
Theorem C115_limit_refuted :
  exists (a b : Serie F64) x y z, repr a 1 (col [x]) /\ repr b 1 (col [y]) /\ whole (2 ^ 53) x /\ whole (2 ^ 53) y /\
  @add F64 F64N a b = Ok (mk 1 (col [z]) 3) /\ is_finite z = true /\ B2R z <> (B2R x + B2R y)%R.
Proof.
  set (x := f64_of_Z (2 ^ 53)); set (y := f64_of_Z 1).
  destruct (f64_of_Z_correct (2 ^ 53) ltac:(lia)) as (Ex & Fx & _); destruct (f64_of_Z_correct 1 ltac:(lia)) as (Ey & Fy & _).
  fold x in Ex, Fx; fold y in Ey, Fy.
  exists (mk 1 (col [x]) 3), (mk 1 (col [y]) 3), x, y, (f64_add x y).
  split; [repr_ex|]; split; [repr_ex|].
  split; [split; [exact Fx|exists (2 ^ 53); split; [exact Ex|lia]]|]; split; [split; [exact Fy|exists 1; split; [exact Ey|lia]]|].
  split; [reflexivity|].
  assert (Q : Beqb (f64_add x y) x = true) by (vm_compute; reflexivity).
  assert (F : is_finite (f64_add x y) = true) by (vm_compute; reflexivity).
  split; [exact F|]; rewrite (Beqb_correct 53 1024 _ _ F Fx) in Q; apply Req_bool_eq in Q || (destruct (Req_bool_spec (B2R (f64_add x y)) (B2R x)); [|discriminate]); lra.
Qed.
Print Assumptions C115_limit_refuted.

Lemma whole_lit B z : Z.abs z <= B -> B <= 2 ^ 53 -> whole B (f64_of_Z z).
Proof. intros H HB; destruct (f64_of_Z_correct z ltac:(lia)) as (E & F & _); split; [exact F|exists z; auto]. Qed.
Ltac whole_ex := unfold wholes; repeat first [apply Forall_cons | apply Forall_nil | apply whole_lit; lia].
Example C115_ex :
  exists p d c, @add F64 F64N (mk 3 [[#1; #2; #3]; [#0; #(-1); #5]] 3) (mk 3 [[#4; #5; #6]; [#7; #8; #9]] 3) = Ok p /\
    exactly p 3 [[1 + 4; 2 + 5; 3 + 6]; [0 + 7; -1 + 8; 5 + 9]]%R /\
    @dot F64 F64N (mk 3 [[#1; #2; #3]; [#0; #(-1); #5]] 3) (mk 3 [[#4; #5; #6]; [#7; #8; #9]] 3) = Ok d /\ exactly d 1 [[32]; [37]]%R /\
    @det F64 F64N (mk 4 [[#1; #2; #3; #4]] 2) = Ok c /\ exactly c 1 [[-2]]%R.
Proof.
  set (ra := [[#1; #2; #3]; [#0; #(-1); #5]]); set (rb := [[#4; #5; #6]; [#7; #8; #9]]).
  assert (V : forall z, Z.abs z <= 2 ^ 53 -> B2R (f64_of_Z z) = IZR z) by (intros z Hz; apply (f64_of_Z_correct z Hz)).
  destruct (C115_add_sub libm0 (mk 3 ra 3) (mk 3 rb 3) 3 ra rb 9) as (p & m & E1 & _ & X1 & _); [repr_ex|repr_ex|reflexivity|whole_ex|whole_ex|lia|].
  destruct (C115_dot libm0 (mk 3 ra 3) (mk 3 rb 3) 3 ra rb 9) as (d & E2 & X2); [repr_ex|repr_ex|discriminate|reflexivity|whole_ex|whole_ex|lia|lia|].
  destruct (C115_det libm0 (mk 4 [[#1; #2; #3; #4]] 2) 2 [[#1; #2; #3; #4]] 4) as (c & E3 & X3); [left; reflexivity|repr_ex|reflexivity|discriminate|whole_ex|lia|].
  exists p, d, c; split; [exact E1|]; split; [|split; [exact E2|split; [|split; [exact E3|]]]].
  - unfold ra, rb in X1; cbn [map map2] in X1; rewrite !V in X1 by lia; exact X1.
  - unfold ra, rb, inner, LinSpec.total, col in X2; cbn [map map2 fold_right] in X2; rewrite !V in X2 by lia.
    replace 32%R with (1 * 4 + (2 * 5 + (3 * 6 + 0)))%R by ring; replace 37%R with (0 * 7 + (-1 * 8 + (5 * 9 + 0)))%R by ring; exact X2.
  - replace (-2)%R with (determinant 2 (full 2 [1; 2; 3; 4]))%R by (det_unfold; unfold full; cbn; ring).
    unfold col in X3; cbn [map] in X3; rewrite !V in X3 by lia; exact X3.
Qed.
