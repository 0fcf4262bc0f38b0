(** * C157: what a passed assertion of the unit tests means. *)
From Coq Require Import Reals Lra.
From Verif Require Import Base Num Serie Spec BaseFacts SerieFacts F64 F64Facts F64Arith F64Round F64Sum.
From Verif Require Import Props_Functional.
From Verif Require Import Assertions.
From Flocq Require Import Core IEEE754.BinarySingleNaN.
Open Scope Z_scope.
Opaque f64_of_Z.

(** the comparison of two numbers passes *)
Definition passes (L : Libm) (tol x y : F64) : Prop := @assertDoubleEqual F64 (f64_num L) x y tol = Ok true.
Definition infinite (x : F64) : Prop := exists s, x = B754_infinity s.
Definition nan (x : F64) : Prop := x = B754_nan.

Lemma passes_iff L tol x y : passes L tol x y <-> Bltb tol (Babs (f64_sub x y)) = false.
Proof.
  unfold passes, assertDoubleEqual. change (n_ltb tol (n_abs (n_sub x y))) with (Bltb tol (Babs (f64_sub x y))).
  destruct (Bltb tol (Babs (f64_sub x y))); split; intros E; congruence.
Qed.

(** finite numbers and tolerance: up to the rounding of the difference, the distance is at most the tolerance *)
Theorem C157_number :
  forall (L : Libm) (tol x y : F64), is_finite tol = true -> is_finite x = true -> is_finite y = true ->
  ((Rabs (B2R x - B2R y) <= B2R tol)%R -> passes L tol x y) /\
  (passes L tol x y -> (Rabs (B2R x - B2R y) <= B2R tol * (1 + / 9007199254740991))%R).
Proof.
  intros L tol x y Ft Fx Fy. rewrite passes_iff.
  assert (Ab : is_finite (Babs tol) = true) by (rewrite is_finite_Babs; exact Ft).
  split.
  - intros H.
    assert (I : in_range (B2R x - B2R y)) by (apply (range_abs tol); rewrite (Rabs_pos_eq (B2R tol)); [exact H|pose proof (Rabs_pos (B2R x - B2R y)); lra]).
    destruct (sub_ok x y Fx Fy I) as [E F].
    apply not_true_iff_false; intros Hlt. apply (lt_ok tol (Babs (f64_sub x y)) Ft) in Hlt; [|rewrite is_finite_Babs; exact F].
    rewrite B2R_Babs, E in Hlt.
    assert (Rabs (rnd (B2R x - B2R y)) <= B2R tol)%R; [|lra].
    apply abs_round_le_generic; [exact fexp_valid|apply valid_rnd_N|apply fmt_B2R|exact H].
  - intros H.
    destruct (is_finite (f64_sub x y)) eqn:F.
    + assert (Hle : (B2R (Babs (f64_sub x y)) <= B2R tol)%R).
      { apply Rnot_lt_le; intros Hlt. apply (lt_ok tol (Babs (f64_sub x y)) Ft) in Hlt; [congruence|rewrite is_finite_Babs; exact F]. }
      rewrite B2R_Babs in Hle. destruct (sub_err x y F) as (e & He & E). rewrite E, Rabs_mult in Hle.
      assert (Ue : (1 - uu <= Rabs (1 + e))%R).
      { pose proof (Rabs_triang_inv 1 (- e)) as Q. rewrite Rabs_Ropp, Rabs_R1 in Q. replace (1 - - e)%R with (1 + e)%R in Q by lra. lra. }
      assert (Uv : uu = (/ 9007199254740992)%R) by (unfold uu; vm_compute; lra).
      assert (U : (0 < uu < 1)%R) by (rewrite Uv; lra).
      pose proof (Rabs_pos (B2R x - B2R y)) as P.
      apply Rmult_le_reg_r with (1 - uu)%R; [lra|].
      replace (B2R tol * (1 + / 9007199254740991) * (1 - uu))%R with (B2R tol)%R; [nra|].
      rewrite Uv. field.
    + exfalso. destruct (f64_sub x y) as [s|s| |s m e B] eqn:E; try discriminate F.
      * destruct tol as [t|t| |t m e B]; try discriminate Ft; destruct t; discriminate H.
      * pose proof (Bminus_correct 53 1024 F64_prec F64_emax mode_NE x y Fx Fy) as C. unfold f64_sub in E. rewrite E in C.
        destruct (Rlt_bool _ _); [destruct C as (_ & C & _); discriminate C|destruct C as [C _]; cbn in C; discriminate C].
Qed.
Print Assumptions C157_number.

(** NaN passes with everything, and so do equal infinities; other pairs with an infinity do not *)
Theorem C157_special :
  forall (L : Libm) (tol x y : F64),
  (nan tol \/ nan x \/ nan y -> passes L tol x y) /\
  (infinite x -> x = y -> passes L tol x y) /\
  (is_finite tol = true -> ~ nan x -> ~ nan y -> infinite x \/ infinite y -> x <> y -> ~ passes L tol x y).
Proof.
  intros L tol x y. rewrite !passes_iff. split; [|split].
  - intros [E | [E | E]]; rewrite E; [reflexivity| |]; destruct tol as [[]|[]| |[]]; try reflexivity; try (destruct x as [[]|[]| |[]]; reflexivity); destruct y as [[]|[]| |[]]; reflexivity.
  - intros [s ->] <-. destruct tol as [[]|[]| |[]], s; reflexivity.
  - intros Ft Nx Ny H Hne. apply not_false_iff_true.
    destruct H as [[s ->]|[s ->]].
    + destruct tol as [[]|[]| |[]]; try discriminate Ft; destruct y as [[]|[]| |[]], s; try reflexivity; try (exfalso; apply Ny; reflexivity); exfalso; apply Hne; reflexivity.
    + destruct tol as [[]|[]| |[]]; try discriminate Ft; destruct x as [[]|[]| |[]], s; try reflexivity; try (exfalso; apply Nx; reflexivity); exfalso; apply Hne; reflexivity.
Qed.
Print Assumptions C157_special.

(** so a passed comparison does not bound the distance, nor does it say that the numbers are numbers *)
Theorem C157_distance_refuted :
  ~ forall (L : Libm) (tol x y : F64), is_finite tol = true -> passes L tol x y ->
      is_finite x = is_finite y /\ (Rabs (B2R x - B2R y) <= B2R tol * (1 + / 9007199254740991))%R.
Proof.
  intros H. destruct (H libm0 (B754_zero false) B754_nan (B754_zero false) eq_refl) as [E _]; [|discriminate E].
  apply (proj1 (C157_special _ _ _ _)). right; left; reflexivity.
Qed.
Print Assumptions C157_distance_refuted.

(** arrays: same length and every pair of numbers passes; the assertion always returns or ends the program *)
Lemma array_loop (L : Libm) tol a b pa pb : length pa = length pb -> length a = length b ->
  exists r, foldO (fun (going : bool) i => if going then
               let* x := rd (pa ++ a) i in let* y := rd (pb ++ b) i in
               Ok (if @n_ltb F64 (f64_num L) tol (@n_abs F64 (f64_num L) (@n_sub F64 (f64_num L) x y)) then false else true)
               else Ok false) (seqZ (length pa) (length a)) true = Ok r /\ (r = true <-> Forall2 (passes L tol) a b).
Proof.
  revert b pa pb; induction a as [|x a IH]; intros [|y b] pa pb Hp Hl; try discriminate.
  { exists true; split; [reflexivity|]. split; [constructor|reflexivity]. }
  cbn [length]. rewrite seqZ_S. cbn [foldO].
  rewrite (rd_nat (pa ++ x :: a) (length pa) x) by (rewrite nth_error_app2, Nat.sub_diag by lia; reflexivity).
  rewrite (rd_nat (pb ++ y :: b) (length pa) y) by (rewrite Hp, nth_error_app2, Nat.sub_diag by lia; reflexivity).
  cbn [obind].
  change (@n_ltb F64 (f64_num L) tol (@n_abs F64 (f64_num L) (@n_sub F64 (f64_num L) x y))) with (Bltb tol (Babs (f64_sub x y))).
  destruct (Bltb tol (Babs (f64_sub x y))) eqn:E.
  - exists false. split; [|split; [discriminate|]].
    + match goal with |- foldO ?g ?l false = _ => generalize l; intros l0; induction l0 as [|i l0 IHl]; [reflexivity|exact IHl] end.
    + intros F. inversion F as [|? ? ? ? P F']; subst. apply passes_iff in P. congruence.
  - destruct (IH b (pa ++ [x]) (pb ++ [y])) as (r & R & Hr); [rewrite !app_length; simpl; lia|simpl in Hl; lia|].
    exists r. rewrite app_length, Nat.add_comm in R. rewrite <- !app_assoc in R. split; [exact R|].
    rewrite Hr. split; [intros F; constructor; [apply passes_iff, E|exact F]|intros F; inversion F; assumption].
Qed.
Theorem C157_arrays :
  forall (L : Libm) (tol : F64) (a b : list F64),
  (@assertArrayEqual F64 (f64_num L) a b tol = Ok true <-> Forall2 (passes L tol) a b) /\
  (@assertArrayEqual F64 (f64_num L) a b tol = Ok true \/ @assertArrayEqual F64 (f64_num L) a b tol = Ok false).
Proof.
  intros L tol a b. unfold assertArrayEqual.
  destruct (Z.eqb_spec (len a) (len b)) as [E|E]; cbn [negb].
  2:{ split; [|right; reflexivity]. split; [discriminate|]. intros F. exfalso. apply E. clear -F. induction F; [reflexivity|rewrite !len_cons; lia]. }
  destruct (array_loop L tol a b [] [] eq_refl) as (r & R & Hr); [unfold len in E; lia|].
  cbn [app length] in R. rewrite iota_len, R. split; [|destruct r; [left|right]; reflexivity].
  rewrite <- Hr. split; [intros Q; injection Q as Q; exact Q|intros ->; reflexivity].
Qed.
Print Assumptions C157_arrays.

(** Series: against an Array only the storage counts; against a Serie also item size, dimension and count *)
Theorem C157_series :
  forall (L : Libm) (tol : F64) (s1 s2 : Serie F64) (a : list F64),
  (@assertSerieEqual_array F64 (f64_num L) s1 a tol = Ok true <-> Forall2 (passes L tol) (s_ s1) a) /\
  (- 2 ^ 31 <= itemSize_ s1 < 2 ^ 31 -> - 2 ^ 31 <= itemSize_ s2 < 2 ^ 31 -> 0 <= dimension_ s1 < 2 ^ 32 -> 0 <= dimension_ s2 < 2 ^ 32 ->
   (@assertSerieEqual F64 (f64_num L) s1 s2 tol = Ok true <->
    itemSize_ s1 = itemSize_ s2 /\ dimension_ s1 = dimension_ s2 /\ count_ s1 = count_ s2 /\ Forall2 (passes L tol) (s_ s1) (s_ s2))).
Proof.
  intros L tol s1 s2 a. split; [apply C157_arrays|]. intros K1 K2 D1 D2.
  assert (S32 : forall x y, s32 x = s32 y -> u32 x = u32 y).
  { assert (Q : forall z, u32 (s32 z) = u32 z).
    { intros z. unfold s32, u32. rewrite Zminus_mod_idemp_l. f_equal. lia. }
    intros x y E. rewrite <- (Q x), <- (Q y), E. reflexivity. }
  assert (EQ : forall x y b, and_then (assertEqual x y) b = Ok true <-> x = y /\ b = Ok true).
  { intros x y b. unfold and_then, assertEqual; cbn [obind]. destruct (Z.eqb_spec x y); cbn [negb]; [tauto|]. split; [discriminate|tauto]. }
  unfold assertSerieEqual. rewrite !EQ. unfold asArray, size, count, dimension, itemSize.
  rewrite (proj1 (C157_arrays L tol (s_ s1) (s_ s2))).
  split.
  - intros (Ei & Ed & Ec & _ & F). split; [|split; [|split; [exact Ec|exact F]]].
    + apply S32 in Ei. unfold u32 in Ei. rewrite !Zmod_mod in Ei. unfold two32 in Ei. clear -Ei K1 K2. Z.div_mod_to_equations. lia.
    + apply S32 in Ed. rewrite !u32_small in Ed by lia. exact Ed.
  - intros (-> & -> & -> & F). repeat (split; [reflexivity|]). exact F.
Qed.
Print Assumptions C157_series.

(** exceptions: only std::invalid_argument counts, in both assertions *)
Theorem C157_conditions :
  forall (c : bool) (a b : Z), (assertCondition c = Ok true <-> c = true) /\ (assertEqual a b = Ok true <-> a = b) /\
  (assertCondition c = Ok false <-> c = false) /\ (assertEqual a b = Ok false <-> a <> b).
Proof.
  intros c a b; unfold assertCondition, assertEqual; destruct c, (Z.eqb_spec a b); cbn [negb]; repeat split; first [reflexivity|discriminate|congruence].
Qed.
Print Assumptions C157_conditions.

Theorem C157_exceptions :
  forall (A : Type) (cb : outcome A),
  (shouldThrowError cb = Ok true <-> cb = Throw InvalidArgument) /\
  (shouldNotThrowError cb = Ok true <-> exists v, cb = Ok v) /\
  (shouldThrowError cb = Ok false <-> exists v, cb = Ok v) /\
  (shouldNotThrowError cb = Ok false <-> cb = Throw InvalidArgument) /\
  (forall e, e <> InvalidArgument -> cb = Throw e -> shouldThrowError cb = Throw e /\ shouldNotThrowError cb = Throw e).
Proof.
  intros A cb. destruct cb as [v|[]|]; cbn [shouldThrowError shouldNotThrowError];
    (split; [split; [intros E; try discriminate E; reflexivity|intros E; try discriminate E; reflexivity]|]);
    (split; [split; [intros E; try discriminate E; eexists; reflexivity|intros [w E]; try discriminate E; reflexivity]|]);
    (split; [split; [intros E; try discriminate E; eexists; reflexivity|intros [w E]; try discriminate E; reflexivity]|]);
    (split; [split; [intros E; try discriminate E; reflexivity|intros E; try discriminate E; reflexivity]|]);
    intros e He E; try discriminate E; injection E as <-; try (exfalso; apply He; reflexivity); split; reflexivity.
Qed.
Print Assumptions C157_exceptions.

(** unitTest/inv.cxx:41-51 compares the nine numbers of an inverse with the tolerance 1e5 instead of 1e-5: whatever finite numbers
    below 99999 [inv] gives, the test passes *)
Definition at_most (r : R) (x : F64) : Prop := is_finite x = true /\ (Rabs (B2R x) <= r)%R.
Theorem C157_inv_test :
  forall (L : Libm) (result : Serie F64) (expected : list F64),
  length (s_ result) = length expected -> Forall (at_most 99999) (s_ result) -> Forall (at_most 1) expected ->
  @assertSerieEqual_array F64 (f64_num L) result expected (@n_of_Z F64 (f64_num L) 100000) = Ok true.
Proof.
  intros L result expected Hl Hr He. apply (proj1 (C157_series L _ result result expected)).
  change (@n_of_Z F64 (f64_num L) 100000) with (f64_of_Z 100000).
  destruct (f64_of_Z_correct 100000 ltac:(lia)) as (R1 & F1 & _).
  revert expected Hl He; induction Hr as [|x l [Fx Bx] Hr IH]; intros [|y e] Hl He; try discriminate; constructor.
  - inversion He as [|? ? [Fy By] He']; subst. apply C157_number; auto. rewrite R1.
    apply Rle_trans with (Rabs (B2R x) + Rabs (B2R y))%R; [|change (IZR 100000) with 100000%R; lra].
    unfold Rminus. rewrite <- (Rabs_Ropp (B2R y)). apply Rabs_triang.
  - apply IH; [simpl in Hl; lia|inversion He; assumption].
Qed.
Print Assumptions C157_inv_test.

Example C157_ex :
  let tol := f64_div (f64_of_Z 1) (f64_of_Z 10000000) in let one := f64_of_Z 1 in let two := f64_of_Z 2 in
  passes libm0 tol one one /\ ~ passes libm0 tol one two /\ passes libm0 tol B754_nan two /\
  @assertArrayEqual F64 F64N [one; two] [one; two] tol = Ok true /\ @assertArrayEqual F64 F64N [one; two] [one; one] tol = Ok false /\
  @assertSerieEqual F64 F64N (mk 1 [[one]; [two]] 3) (mk 2 [[one; two]] 3) tol = Ok false /\
  @assertSerieEqual_array F64 F64N (mk 1 [[B754_nan]; [two]] 3) [one; two] tol = Ok true /\
  at_most 99999 one /\ at_most 1 one.
Proof.
  intros tol one two.

  split; [apply passes_iff; vm_compute; reflexivity|].
  split; [rewrite passes_iff; vm_compute; discriminate|].
  split; [apply (proj1 (C157_special _ _ _ _)); right; left; reflexivity|].
  split; [vm_compute; reflexivity|]. split; [vm_compute; reflexivity|]. split; [vm_compute; reflexivity|]. split; [vm_compute; reflexivity|].
  assert (Q : is_finite one = true /\ B2R one = 1%R) by (destruct (f64_of_Z_correct 1 ltac:(lia)) as (R1 & F1 & _); split; [exact F1|exact R1]).
  destruct Q as [F E]. unfold at_most. rewrite E, Rabs_R1. repeat split; try exact F; lra.
Qed.
