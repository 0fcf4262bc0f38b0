(** * C139: determinants in binary64. *)
From Verif Require Import Base Num Serie Spec BaseFacts SerieFacts Functional FunctionalFacts Utils Mathf MathFacts MinMaxFacts Views Stats StatsFacts Algebra AlgebraFacts.
From Verif Require Import F64 F64Facts F64Arith F64Round F64Sum RNum LinSpec Props_Functional Props_Algebra Props_Det Props_F64Int F64Error.
From Verif Require Import Props_F64Cross.
From Flocq Require Import Core IEEE754.BinarySingleNaN.
From Coq Require Import Reals Lra Psatz.
Open Scope Z_scope.
Opaque f64_of_Z.

Definition det2 (a b c d : F64) : F64 := f64_sub (f64_mul a d) (f64_mul b c).
Definition det3 (a b c d e f g h i : F64) : F64 :=
  f64_sub (f64_add (f64_add (f64_sub (f64_sub (f64_mul (f64_mul a e) i) (f64_mul (f64_mul a f) h)) (f64_mul (f64_mul b d) i)) (f64_mul (f64_mul b f) g)) (f64_mul (f64_mul c d) h)) (f64_mul (f64_mul c e) g).
Definition det_of (v : list F64) : F64 :=
  match v with
  | [a; b; c; d] => det2 a b c d
  | [a; b; c; d; e; f; g; h; i] => det3 a b c d e f g h i
  | _ => #0
  end.
Lemma det_f64 (L : Libm) (s : Serie F64) n rows :
  (n = 2 \/ n = 3)%nat -> repr s (Z.of_nat (n * n)) rows -> dimension s = Z.of_nat n -> rows <> [] ->
  @det F64 (f64_num L) s = Ok (mk 1 (col (map det_of rows)) 3).
Proof.
  intros Hn Hs Hd Hne; pose proof (repr_rows _ _ _ Hs) as Rr; unfold rows_of_size in Rr; rewrite Forall_forall in Rr.
  unfold det; rewrite (isValid_repr _ _ _ Hs); replace (0 <? Z.of_nat (n * n)) with true by (destruct Hn as [-> | ->]; reflexivity); cbn [negb].
  cbv zeta.
  assert (Ei : itemSize (serie_copy s) = Z.of_nat (n * n)) by (rewrite <- (repr_itemSize _ _ _ Hs); reflexivity).
  assert (Ed : dimension (serie_copy s) = Z.of_nat n) by (rewrite <- Hd; reflexivity).
  rewrite Ei, Ed; unfold col; rewrite map_map.
  apply (map_rows_ok s _ rows (@det_item F64 (f64_num L) (Z.of_nat (n * n)) (Z.of_nat n)) _ 1 Hs Hne ltac:(lia)).
  intros v Hv; specialize (Rr v Hv); split; [|reflexivity].
  destruct Hn as [-> | ->].
  - change (Z.of_nat (2 * 2)) with 4 in *; change (Z.of_nat 2) with 2 in *.
    destruct (len4 v Rr) as (a & b & c & d & ->); rewrite (det_item_2 a b c d) by (apply squaredMatrix_f64; auto); reflexivity.
  - change (Z.of_nat (3 * 3)) with 9 in *; change (Z.of_nat 3) with 3 in *.
    destruct (len9 v Rr) as (a & b & c & d & e & f & g & h & i & ->); rewrite (det_item_3 a b c d e f g h i) by (apply squaredMatrix_f64; auto); reflexivity.
Qed.

(** ** rounding error *)
Open Scope R_scope.
Definition bounded (M : R) (v : list F64) : Prop := Forall (fun x => is_finite x = true /\ Rabs (B2R x) <= M) v.

Lemma uu_small : 0 < uu <= / 1000000.
Proof. unfold uu; split; [apply Rinv_0_lt_compat; lra|apply Rinv_le; lra]. Qed.

Section Error.
  Variable M : R.
  Hypothesis HM : bpow radix2 (-330) <= M <= bpow radix2 330.
  Lemma M_pos : 0 < M.
  Proof. pose proof (bpow_gt_0 radix2 (-330)); lra. Qed.
  Lemma M_cube : lo <= M * M * M /\ 8 * (M * M * M) <= hi /\ lo <= M * M /\ 8 * (M * M) <= hi.
  Proof.
    pose proof M_pos as P; destruct HM as [H1 H2].
    assert (L2 : bpow radix2 (-660) <= M * M).
    { change (-660)%Z with (-330 + -330)%Z; rewrite bpow_plus; pose proof (bpow_ge_0 radix2 (-330)); apply Rmult_le_compat; lra. }
    assert (U2 : M * M <= bpow radix2 660).
    { change 660%Z with (330 + 330)%Z; rewrite bpow_plus; apply Rmult_le_compat; lra. }
    assert (L3 : bpow radix2 (-990) <= M * M * M).
    { change (-990)%Z with (-660 + -330)%Z; rewrite bpow_plus; pose proof (bpow_ge_0 radix2 (-330)); pose proof (bpow_ge_0 radix2 (-660)); apply Rmult_le_compat; lra. }
    assert (U3 : M * M * M <= bpow radix2 990).
    { change 990%Z with (660 + 330)%Z; rewrite bpow_plus; apply Rmult_le_compat; try lra; apply Rmult_le_pos; lra. }
    assert (E : hi = 1024 * bpow radix2 990) by (unfold hi; change 1000%Z with (10 + 990)%Z; rewrite bpow_plus; change (bpow radix2 10) with 1024; reflexivity).
    assert (lo <= bpow radix2 (-990)) by (unfold lo; apply bpow_le; lia).
    assert (bpow radix2 (-990) <= bpow radix2 (-660)) by (apply bpow_le; lia).
    assert (bpow radix2 660 <= bpow radix2 990) by (apply bpow_le; lia).
    pose proof (bpow_gt_0 radix2 990); lra.
  Qed.

  Lemma near2 x y : is_finite x = true -> Rabs (B2R x) <= M -> is_finite y = true -> Rabs (B2R y) <= M ->
    nearby (f64_mul x y) (B2R x * B2R y) (uu * (M * M)).
  Proof.
    intros Fx Bx Fy By; pose proof M_pos; pose proof M_cube as (_ & _ & C1 & C2).
    apply (mul_near x y _ _ 0 0 M M (M * M)); auto using nearby_self; try lra.
    assert (0 < M * M) by (apply Rmult_lt_0_compat; lra); lra.
  Qed.
  Lemma det2_error a b c d : bounded M [a; b; c; d] ->
    nearby (det2 a b c d) (B2R a * B2R d - B2R b * B2R c) (5 * uu * (M * M)).
  Proof.
    intros H; unfold bounded in H; rewrite Forall_forall in H.
    destruct (H a ltac:(simpl; tauto)) as [Fa Ba]; destruct (H b ltac:(simpl; tauto)) as [Fb Bb];
    destruct (H c ltac:(simpl; tauto)) as [Fc Bc]; destruct (H d ltac:(simpl; tauto)) as [Fd Bd].
    pose proof M_cube as (_ & _ & C1 & C2); pose proof uu_small as U; pose proof M_pos as P.
    assert (Q : 0 < M * M) by (apply Rmult_lt_0_compat; lra).
    assert (K : 0 < uu * (M * M) <= / 1000000 * (M * M)) by (split; [apply Rmult_lt_0_compat; lra|apply Rmult_le_compat_r; lra]).
    pose proof (prod_le _ _ _ _ Ba Bd) as P1; pose proof (prod_le _ _ _ _ Bb Bc) as P2; apply abs_le in P1, P2.
    unfold det2; apply (sub_near _ _ _ _ (uu * (M * M)) (uu * (M * M)) (3 * (M * M))); auto using near2; try lra.
    assert (Rabs (B2R a * B2R d - B2R b * B2R c) <= 2 * (M * M)) by (apply abs_le; lra); lra.
  Qed.

  (** a product of three *)
  Lemma near3 x y z : is_finite x = true -> Rabs (B2R x) <= M -> is_finite y = true -> Rabs (B2R y) <= M -> is_finite z = true -> Rabs (B2R z) <= M ->
    nearby (f64_mul (f64_mul x y) z) (B2R x * B2R y * B2R z) (21 / 10 * uu * (M * M * M)) /\ - (M * M * M) <= B2R x * B2R y * B2R z <= M * M * M.
  Proof.
    intros Fx Bx Fy By Fz Bz; pose proof M_pos as P; pose proof M_cube as (C1 & C2 & _ & _); pose proof uu_small as U.
    assert (Q : 0 < M * M) by (apply Rmult_lt_0_compat; lra).
    assert (Q3 : 0 < M * M * M) by (apply Rmult_lt_0_compat; lra).
    assert (K : 0 < uu * (M * M * M) <= / 1000000 * (M * M * M)) by (split; [apply Rmult_lt_0_compat; lra|apply Rmult_le_compat_r; lra]).
    assert (K2 : uu * (uu * (M * M * M)) <= / 1000000 * (uu * (M * M * M))) by (apply Rmult_le_compat_r; lra).
    pose proof (prod_le _ _ _ _ Bx By) as P1.
    split; [|apply abs_le; apply prod_le; assumption].
    apply (mul_near _ z _ _ (uu * (M * M)) 0 (M * M) M ((1 + uu) * (M * M * M))); auto using near2, nearby_self; try lra.
  Qed.
  Lemma det3_error a b c d e f g h i : bounded M [a; b; c; d; e; f; g; h; i] ->
    nearby (det3 a b c d e f g h i)
      (B2R a * B2R e * B2R i - B2R a * B2R f * B2R h - B2R b * B2R d * B2R i + B2R b * B2R f * B2R g + B2R c * B2R d * B2R h - B2R c * B2R e * B2R g)
      (34 * uu * (M * M * M)).
  Proof.
    intros H; unfold bounded in H; rewrite Forall_forall in H.
    destruct (H a ltac:(simpl; tauto)) as [Fa Ba]; destruct (H b ltac:(simpl; tauto)) as [Fb Bb];
    destruct (H c ltac:(simpl; tauto)) as [Fc Bc]; destruct (H d ltac:(simpl; tauto)) as [Fd Bd];
    destruct (H e ltac:(simpl; tauto)) as [Fe Be]; destruct (H f ltac:(simpl; tauto)) as [Ff Bf];
    destruct (H g ltac:(simpl; tauto)) as [Fg Bg]; destruct (H h ltac:(simpl; tauto)) as [Fh Bh];
    destruct (H i ltac:(simpl; tauto)) as [Fi Bi]; clear H.
    destruct (near3 a e i Fa Ba Fe Be Fi Bi) as [N1 B1]; destruct (near3 a f h Fa Ba Ff Bf Fh Bh) as [N2 B2];
    destruct (near3 b d i Fb Bb Fd Bd Fi Bi) as [N3 B3]; destruct (near3 b f g Fb Bb Ff Bf Fg Bg) as [N4 B4];
    destruct (near3 c d h Fc Bc Fd Bd Fh Bh) as [N5 B5]; destruct (near3 c e g Fc Bc Fe Be Fg Bg) as [N6 B6].
    unfold det3.
    generalize dependent (f64_mul (f64_mul a e) i); generalize dependent (f64_mul (f64_mul a f) h); generalize dependent (f64_mul (f64_mul b d) i);
    generalize dependent (f64_mul (f64_mul b f) g); generalize dependent (f64_mul (f64_mul c d) h); generalize dependent (f64_mul (f64_mul c e) g).
    generalize dependent (B2R a * B2R e * B2R i); generalize dependent (B2R a * B2R f * B2R h); generalize dependent (B2R b * B2R d * B2R i);
    generalize dependent (B2R b * B2R f * B2R g); generalize dependent (B2R c * B2R d * B2R h); generalize dependent (B2R c * B2R e * B2R g).
    intros r6 B6 r5 B5 r4 B4 r3 B3 r2 B2 r1 B1 x6 N6 x5 N5 x4 N4 x3 N3 x2 N2 x1 N1.
    pose proof M_pos as P; pose proof M_cube as (C1 & C2 & _ & _); pose proof uu_small as U.
    assert (Q3 : 0 < M * M * M) by (apply Rmult_lt_0_compat; [apply Rmult_lt_0_compat|]; lra).
    assert (K : 0 < uu * (M * M * M) <= / 1000000 * (M * M * M)) by (split; [apply Rmult_lt_0_compat; lra|apply Rmult_le_compat_r; lra]).
    set (W := M * M * M) in *; clearbody W.
    assert (S1 : nearby (f64_sub x1 x2) (r1 - r2) (63 / 10 * uu * W)).
    { apply (sub_near _ _ _ _ (21 / 10 * uu * W) (21 / 10 * uu * W) (21 / 10 * W)); auto; try lra.
      assert (Rabs (r1 - r2) <= 2 * W) by (apply abs_le; lra); lra. }
    assert (S2 : nearby (f64_sub (f64_sub x1 x2) x3) (r1 - r2 - r3) (115 / 10 * uu * W)).
    { apply (sub_near _ _ _ _ (63 / 10 * uu * W) (21 / 10 * uu * W) (31 / 10 * W)); auto; try lra.
      assert (Rabs (r1 - r2 - r3) <= 3 * W) by (apply abs_le; lra); lra. }
    assert (S3 : nearby (f64_add (f64_sub (f64_sub x1 x2) x3) x4) (r1 - r2 - r3 + r4) (177 / 10 * uu * W)).
    { apply (add_near _ _ _ _ (115 / 10 * uu * W) (21 / 10 * uu * W) (41 / 10 * W)); auto; try lra.
      assert (Rabs (r1 - r2 - r3 + r4) <= 4 * W) by (apply abs_le; lra); lra. }
    assert (S4 : nearby (f64_add (f64_add (f64_sub (f64_sub x1 x2) x3) x4) x5) (r1 - r2 - r3 + r4 + r5) (249 / 10 * uu * W)).
    { apply (add_near _ _ _ _ (177 / 10 * uu * W) (21 / 10 * uu * W) (51 / 10 * W)); auto; try lra.
      assert (Rabs (r1 - r2 - r3 + r4 + r5) <= 5 * W) by (apply abs_le; lra); lra. }
    apply (sub_near _ _ _ _ (249 / 10 * uu * W) (21 / 10 * uu * W) (6 * W + 30 * (uu * W))); auto; try lra.
    - assert (Rabs (r1 - r2 - r3 + r4 + r5 - r6) <= 6 * W) by (apply abs_le; lra); lra.
    - assert (uu * (uu * W) <= / 1000000 * (uu * W)) by (apply Rmult_le_compat_r; lra); lra.
  Qed.
End Error.

Definition slack (n : nat) : R := if Nat.eqb n 2 then 5 else 34.
Lemma det_of_error M n v : (n = 2 \/ n = 3)%nat -> bpow radix2 (-330) <= M <= bpow radix2 330 -> len v = Z.of_nat (n * n) -> bounded M v ->
  nearby (det_of v) (determinant n (full n (values v))) (slack n * uu * M ^ n).
Proof.
  intros Hn HM Lv Hv; destruct Hn as [-> | ->].
  - destruct (len4 v Lv) as (a & b & c & d & ->).
    pose proof (det2_error M HM a b c d Hv) as N; unfold det_of, slack; cbn [Nat.eqb map].
    replace (5 * uu * M ^ 2) with (5 * uu * (M * M)) by ring.
    match type of N with nearby _ ?q _ => match goal with |- nearby _ ?r _ => replace r with q; [exact N|] end end.
    clear; generalize (B2R a), (B2R b), (B2R c), (B2R d); intros; det_unfold; unfold full; cbn; ring.
  - destruct (len9 v Lv) as (a & b & c & d & e & f & g & h & i & ->).
    pose proof (det3_error M HM a b c d e f g h i Hv) as N; unfold det_of, slack; cbn [Nat.eqb map].
    replace (34 * uu * M ^ 3) with (34 * uu * (M * M * M)) by ring.
    match type of N with nearby _ ?q _ => match goal with |- nearby _ ?r _ => replace r with q; [exact N|] end end.
    clear; generalize (B2R a), (B2R b), (B2R c), (B2R d), (B2R e), (B2R f), (B2R g), (B2R h), (B2R i); intros; det_unfold; unfold full; cbn; ring.
Qed.

(** entries at most M: the result is a number, at most 5 u M^2 (2x2) or 34 u M^3 (3x3) away from the determinant *)
Theorem C139_error :
  forall (L : Libm) (s : Serie F64) n rows M,
  (n = 2 \/ n = 3)%nat -> repr s (Z.of_nat (n * n)) rows -> dimension s = Z.of_nat n -> rows <> [] ->
  bpow radix2 (-330) <= M <= bpow radix2 330 -> Forall (bounded M) rows ->
  exists ds, @det F64 (f64_num L) s = Ok (mk 1 (col ds) 3) /\
  Forall2 (fun v d => is_finite d = true /\ Rabs (B2R d - determinant n (full n (values v))) <= slack n * uu * M ^ n) rows ds.
Proof.
  intros L s n rows M Hn Hs Hd Hne HM HB; exists (map det_of rows); split; [apply (det_f64 L s n); assumption|].
  pose proof (repr_rows _ _ _ Hs) as Rr; clear Hs Hne; induction rows as [|v rows IH]; cbn [map]; constructor.
  - inversion HB; inversion Rr; subst; apply det_of_error; assumption.
  - inversion HB; inversion Rr; subst; apply IH; assumption.
Qed.
Print Assumptions C139_error.

(** so a result beyond that bound has the sign of the determinant *)
Theorem C139_sign :
  forall (L : Libm) (s : Serie F64) n rows M,
  (n = 2 \/ n = 3)%nat -> repr s (Z.of_nat (n * n)) rows -> dimension s = Z.of_nat n -> rows <> [] ->
  bpow radix2 (-330) <= M <= bpow radix2 330 -> Forall (bounded M) rows ->
  exists ds, @det F64 (f64_num L) s = Ok (mk 1 (col ds) 3) /\
  Forall2 (fun v d => (slack n * uu * M ^ n < B2R d -> 0 < determinant n (full n (values v))) /\
                      (B2R d < - (slack n * uu * M ^ n) -> determinant n (full n (values v)) < 0)) rows ds.
Proof.
  intros L s n rows M Hn Hs Hd Hne HM HB; destruct (C139_error L s n rows M Hn Hs Hd Hne HM HB) as (ds & E & F); exists ds; split; [exact E|].
  clear - F; induction F as [|v d rows ds [_ H] F IH]; constructor; [|exact IH]; apply abs_le in H; split; intros; lra.
Qed.
Print Assumptions C139_sign.

(** ** 2x2: exact symmetries, and singular matrices are recognised *)
Definition transposed (v : list F64) : list F64 :=
  match v with
  | [a; b; c; d] => [a; c; b; d]
  | [a; b; c; d; e; f; g; h; i] => [a; d; g; b; e; h; c; f; i]
  | _ => v
  end.
Definition swapped2 (v : list F64) : list F64 := match v with [a; b; c; d] => [c; d; a; b] | _ => v end.
Theorem C139_two :
  forall (L : Libm) (s t w : Serie F64) rows,
  repr s 4 rows -> repr t 4 (map transposed rows) -> repr w 4 (map swapped2 rows) -> rows <> [] ->
  dimension s = 2%Z -> dimension t = 2%Z -> dimension w = 2%Z ->
  exists ds es, @det F64 (f64_num L) s = Ok (mk 1 (col ds) 3) /\ @det F64 (f64_num L) t = Ok (mk 1 (col ds) 3) /\
    @det F64 (f64_num L) w = Ok (mk 1 (col es) 3) /\ Forall2 (fun d e => zeq e (Bopp d)) ds es.
Proof.
  intros L s t w rows Hs Ht Hw Hne Ds Dt Dw.
  assert (N : forall f, map f rows <> @nil (list F64)) by (intros f E; destruct rows; [congruence|discriminate]).
  pose proof (det_f64 L s 2 rows (or_introl eq_refl) Hs Ds Hne) as E1.
  pose proof (det_f64 L t 2 _ (or_introl eq_refl) Ht Dt (N _)) as E2.
  pose proof (det_f64 L w 2 _ (or_introl eq_refl) Hw Dw (N _)) as E3.
  pose proof (repr_rows _ _ _ Hs) as Rr; unfold rows_of_size in Rr; rewrite Forall_forall in Rr.
  exists (map det_of rows), (map det_of (map swapped2 rows)); split; [exact E1|]; split; [|split; [exact E3|]].
  - rewrite E2, map_map; do 3 f_equal; apply map_ext_in; intros v Hv; destruct (len4 v (Rr v Hv)) as (a & b & c & d & ->).
    cbn [transposed det_of]; unfold det2; rewrite (f64_mul_comm c b); reflexivity.
  - clear - Rr; induction rows as [|v rows IH]; cbn [map]; constructor; [|apply IH; intros; apply Rr; right; assumption].
    destruct (len4 v (Rr v (or_introl eq_refl))) as (a & b & c & d & ->); cbn [swapped2 det_of]; unfold det2.
    rewrite (f64_mul_comm c b), (f64_mul_comm d a); apply sub_anti_zeq.
Qed.
Print Assumptions C139_two.

Theorem C139_singular :
  forall (L : Libm) (s : Serie F64) rows M,
  repr s 4 rows -> dimension s = 2%Z -> rows <> [] -> M <= bpow radix2 330 -> Forall (bounded M) rows ->
  exists ds, @det F64 (f64_num L) s = Ok (mk 1 (col ds) 3) /\
  Forall2 (fun v d => determinant 2 (full 2 (values v)) = 0 -> is_zero d) rows ds.
Proof.
  intros L s rows M Hs Hd Hne HM HB; exists (map det_of rows); split; [apply (det_f64 L s 2); auto|].
  pose proof (repr_rows _ _ _ Hs) as Rr; clear Hs Hne; induction rows as [|v rows IH]; cbn [map]; constructor;
    [|inversion HB; inversion Rr; subst; apply IH; assumption].
  inversion HB as [|? ? Hv _]; inversion Rr as [|? ? Lv _]; subst; clear IH HB Rr.
  destruct (len4 v Lv) as (a & b & c & d & ->); intros E.
  assert (E' : B2R a * B2R d = B2R b * B2R c).
  { assert (X : B2R a * B2R d - B2R b * B2R c = 0); [|lra].
    rewrite <- E; clear; cbn [map]; generalize (B2R a), (B2R b), (B2R c), (B2R d); intros; det_unfold; unfold full; cbn; ring. }
  unfold bounded in Hv; rewrite Forall_forall in Hv.
  destruct (Hv a ltac:(simpl; tauto)) as [Fa Ba]; destruct (Hv b ltac:(simpl; tauto)) as [Fb Bb];
  destruct (Hv c ltac:(simpl; tauto)) as [Fc Bc]; destruct (Hv d ltac:(simpl; tauto)) as [Fd Bd].
  assert (S : forall x y : F64, Rabs (B2R x) <= M -> Rabs (B2R y) <= M -> in_range (B2R x * B2R y)).
  { intros x y Bx By; apply small_range; apply Rle_trans with (bpow radix2 330 * bpow radix2 330); [apply prod_le; lra|].
    rewrite <- bpow_plus; unfold hi; apply bpow_le; lia. }
  destruct (mul_ok a d Fa Fd (S a d Ba Bd)) as [E1 F1]; destruct (mul_ok b c Fb Fc (S b c Bb Bc)) as [E2 F2].
  cbn [det_of]; unfold det2; apply f64_sub_zero; rewrite E1, E2, E'; auto.
Qed.
Print Assumptions C139_singular.

(** a non-singular matrix with determinant 0: (2^30+1)^2 - (2^60+2^31) = 1 *)
Definition lost : list F64 := [#(2 ^ 30 + 1); #(2 ^ 60 + 2 ^ 31); #1; #(2 ^ 30 + 1)]%Z.
Theorem C139_regular_refuted :
  repr (mk 4 [lost] 2) 4 [lost] /\ dimension (mk 4 [lost] 2) = 2%Z /\ determinant 2 (full 2 (values lost)) = 1 /\
  exists d, (forall L : Libm, @det F64 (f64_num L) (mk 4 [lost] 2) = Ok (mk 1 (col [d]) 3)) /\ is_zero d.
Proof.
  assert (R1 : repr (mk 4 [lost] 2) 4 [lost]) by repr_ex.
  split; [exact R1|]; split; [reflexivity|]; split.
  - destruct (f64_of_Z_correct (2 ^ 30 + 1) ltac:(lia)) as (E1 & _); destruct (f64_of_Z_correct 1 ltac:(lia)) as (E3 & _).
    assert (E2 : B2R #(2 ^ 60 + 2 ^ 31)%Z = IZR (2 ^ 60 + 2 ^ 31)).
    { assert (X : B2SF #(2 ^ 60 + 2 ^ 31)%Z = SpecFloat.S754_finite false 4503599635759104 8) by (vm_compute; reflexivity).
      rewrite <- SF2R_B2SF, X; unfold SF2R, F2R; cbn [Fnum Fexp cond_Zopp]; change (bpow radix2 8) with 256; rewrite <- mult_IZR; f_equal. }
    assert (G : forall a b c d : R, determinant 2 (full 2 [a; b; c; d]) = a * d - b * c) by (intros; det_unfold; unfold full; cbn; ring).
    unfold lost; cbn [map]; rewrite G, E1, E2, E3, <- !mult_IZR, <- minus_IZR; reflexivity.
  - exists (det_of lost); split; [intros L; apply (det_f64 L _ 2 [lost]); auto; discriminate|].
    unfold is_zero; exists false; vm_compute; reflexivity.
Qed.
Print Assumptions C139_regular_refuted.

(** 3x3: two equal rows do not give 0, and the transposed matrix has another determinant; entries are multiples of 0.1 *)
Definition tenth (z : Z) : F64 := f64_div #z #10.
Definition equal_rows : list F64 := map tenth [-1; 2; -2; -1; 2; -2; 1; 1; 1]%Z.
Definition skewed : list F64 := map tenth [-1; 2; 1; -2; -1; -2; 1; -1; -2]%Z.
Theorem C139_three_refuted :
  repr (mk 9 [equal_rows] 3) 9 [equal_rows] /\ firstn 3 equal_rows = firstn 3 (skipn 3 equal_rows) /\
  determinant 3 (full 3 (values equal_rows)) = 0 /\
  (exists d, (forall L : Libm, @det F64 (f64_num L) (mk 9 [equal_rows] 3) = Ok (mk 1 (col [d]) 3)) /\ is_finite d = true /\ Beqb d #0 = false) /\
  repr (mk 9 [skewed; transposed skewed] 3) 9 [skewed; transposed skewed] /\
  determinant 3 (full 3 (values skewed)) = determinant 3 (full 3 (values (transposed skewed))) /\
  exists d e, (forall L : Libm, @det F64 (f64_num L) (mk 9 [skewed; transposed skewed] 3) = Ok (mk 1 (col [d; e]) 3)) /\
    is_finite d = true /\ is_finite e = true /\ Beqb d e = false.
Proof.
  assert (R1 : repr (mk 9 [equal_rows] 3) 9 [equal_rows]) by repr_ex.
  assert (R2 : repr (mk 9 [skewed; transposed skewed] 3) 9 [skewed; transposed skewed]) by repr_ex.
  split; [exact R1|]; split; [unfold equal_rows; cbn [map firstn skipn]; reflexivity|]; split.
  { unfold equal_rows; cbn [map]; generalize (B2R (tenth (-1))), (B2R (tenth 2)), (B2R (tenth (-2))), (B2R (tenth 1)); intros; det_unfold; unfold full; cbn; ring. }
  split; [exists (det_of equal_rows); split; [intros L; apply (det_f64 L _ 3 [equal_rows]); auto; discriminate|split; vm_compute; reflexivity]|].
  split; [exact R2|]; split.
  { unfold skewed, transposed; cbn [map]; generalize (B2R (tenth (-1))), (B2R (tenth 2)), (B2R (tenth (-2))), (B2R (tenth 1)); intros; det_unfold; unfold full; cbn; ring. }
  exists (det_of skewed), (det_of (transposed skewed)); split; [intros L; apply (det_f64 L _ 3 [skewed; transposed skewed]); auto; discriminate|].
  split; [|split]; vm_compute; reflexivity.
Qed.
Print Assumptions C139_three_refuted.

(** the hypotheses are met by the matrix of tenths, with M = 1 *)
Example C139_ex :
  repr (mk 9 [skewed] 3) (Z.of_nat (3 * 3)) [skewed] /\ dimension (mk 9 [skewed] 3) = Z.of_nat 3 /\
  bpow radix2 (-330) <= 1 <= bpow radix2 330 /\ Forall (bounded 1) [skewed].
Proof.
  split; [repr_ex|]; split; [reflexivity|]; split.
  - change 1 with (bpow radix2 0); split; apply bpow_le; lia.
  - assert (T : forall z, In z [-1; 2; 1; -2]%Z -> is_finite (tenth z) = true /\ Rabs (B2R (tenth z)) <= 1).
    { intros z Hz; assert (F : is_finite (tenth z) = true /\ Bleb (tenth z) #1 = true /\ Bleb #(-1) (tenth z) = true).
      { cbn in Hz; destruct Hz as [<-|[<-|[<-|[<-|[]]]]]; (split; [vm_compute; reflexivity|split; vm_compute; reflexivity]). }
      destruct F as (F & U & V).
      destruct (f64_of_Z_correct 1 ltac:(lia)) as (E1 & F1 & _); destruct (f64_of_Z_correct (-1) ltac:(lia)) as (E2 & F2 & _).
      apply (le_ok _ _ F F1) in U; apply (le_ok _ _ F2 F) in V; rewrite E1 in U; rewrite E2 in V; split; [exact F|]; apply abs_le; lra. }
    constructor; [|constructor]; unfold bounded, skewed; cbn [map]; repeat (apply Forall_cons; [apply T; simpl; tauto|]); apply Forall_nil.
Qed.
