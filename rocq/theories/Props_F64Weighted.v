(** * C120: weigthedSum in binary64. *)
From Verif Require Import Base Num Serie Spec BaseFacts SerieFacts Functional FunctionalFacts Utils Mathf MathFacts MinMaxFacts LinSpec.
From Verif Require Import F64 F64Facts F64Arith F64Round F64Sum Props_Functional Props_AddSub Props_MultDiv Props_Weighted Props_F64Sum Props_F64Int.
From Flocq Require Import Core IEEE754.BinarySingleNaN.
From Coq Require Import Reals Lra Psatz.
Open Scope Z_scope.
#[local] Existing Instance F64N.
Opaque f64_of_Z.

(** component [c] of item [i] of each of the Series *)
Definition across (tables : list (list (list F64))) (i c : nat) : list F64 := map (fun t => nth c (nth i t []) #0) tables.

Lemma combination_f64 (L : Libm) tables ws i c : length ws = length tables ->
  @combination F64 (f64_num L) (combine tables ws) i c = fold_left f64_add (map2 f64_mul (across tables i c) ws) #0.
Proof.
  unfold combination; cbn [n_add n_mul n_of_Z f64_num]; change (@n0 F64 (f64_num L)) with #0.
  generalize #0; revert ws.
  induction tables as [|t tables IH]; intros [|w ws] acc Hl; simpl in Hl; try discriminate; [reflexivity|].
  cbn [combine fold_left across map map2 fst snd]; rewrite IH by lia; reflexivity.
Qed.

Theorem C120_error :
  forall (L : Libm) (ss : list (Serie F64)) k n tables ws,
  one_shape ss k n tables -> ss <> [] -> len ws = len ss -> 1 <= n -> 1 <= k ->
  exists rows, @weigthedSum F64 (f64_num L) ss ws = Ok (mk k rows 3) /\ len rows = n /\ rows_of_size k rows /\
  forall i c, Z.of_nat i < n -> Z.of_nat c < k -> let x := nth c (nth i rows []) #0 in is_finite x = true ->
    let terms := across tables i c in
    (Rabs (B2R x - dotB terms ws) <= growth (S (length ss)) * dotA terms ws + (1 + uu) ^ length ss * (INR (length ss) * eta))%R.
Proof.
  intros L ss k n tables ws H Hne Hw Hn Hk.
  destruct (C61_weighted_sum F64 (f64_num L) ss k n tables ws H Hne Hw Hn Hk) as (rows & E & Lr & Rr & V).
  exists rows; split; [exact E|]; split; [exact Lr|]; split; [exact Rr|].
  intros i c Hi Hc x Fx terms; pose proof (V i c Hi Hc) as Ex; unfold at2 in Ex at 1; change (@n0 F64 (f64_num L)) with #0 in Ex; fold x in Ex.
  assert (Lt : length tables = length ss) by (clear -H; induction H; simpl; congruence).
  rewrite (combination_f64 L tables ws i c) in Ex by (unfold len in Hw; lia).
  assert (Lx : length terms = length ws) by (unfold terms, across; rewrite map_length; unfold len in Hw; lia).
  rewrite Ex in Fx; destruct (sum_prod_err terms ws Lx Fx) as (_ & _ & B).
  rewrite Ex; unfold dotB, dotA; replace (length ss) with (length terms) by (unfold terms, across; rewrite map_length; exact Lt); exact B.
Qed.
Print Assumptions C120_error.

(** Whole numbers: no rounding at all, and the result is the exact weighted sum *)
Theorem C120_whole :
  forall (L : Libm) (ss : list (Serie F64)) k n tables ws B,
  one_shape ss k n tables -> ss <> [] -> len ws = len ss -> 1 <= n -> 1 <= k ->
  Forall (wholes B) tables -> Forall (whole B) ws -> 0 <= B -> len ss * (B * B) <= 2 ^ 53 ->
  exists rows, @weigthedSum F64 (f64_num L) ss ws = Ok (mk k rows 3) /\ len rows = n /\ rows_of_size k rows /\
  forall i c, Z.of_nat i < n -> Z.of_nat c < k -> let x := nth c (nth i rows []) #0 in
    is_finite x = true /\ B2R x = inner (values (across tables i c)) (values ws).
Proof.
  intros L ss k n tables ws B H Hne Hw Hn Hk Ht Hws HB Hb.
  destruct (C61_weighted_sum F64 (f64_num L) ss k n tables ws H Hne Hw Hn Hk) as (rows & E & Lr & Rr & V).
  exists rows; split; [exact E|]; split; [exact Lr|]; split; [exact Rr|].
  intros i c Hi Hc x; pose proof (V i c Hi Hc) as Ex; unfold at2 in Ex at 1; change (@n0 F64 (f64_num L)) with #0 in Ex; fold x in Ex.
  assert (Lt : length tables = length ss) by (clear -H; induction H; simpl; congruence).
  rewrite (combination_f64 L tables ws i c) in Ex by (unfold len in Hw; lia).
  assert (Wx : Forall (whole B) (across tables i c)).
  { clear -H Ht Hi Hc; induction H as [|s t ss tables [Rs Ls] H IH]; [constructor|].
    inversion Ht as [|? ? Wt Ht']; subst; constructor; [|apply IH; exact Ht'].
    destruct (nth_error_len t i) as [r Hr]; [unfold len in Hi; lia|].
    rewrite (nth_error_nth t i [] Hr); pose proof (wholes_nth _ _ _ _ Wt Hr) as Wr.
    pose proof (rows_nth_len _ _ _ _ (repr_rows _ _ _ Rs) Hr) as Lr.
    rewrite Forall_forall in Wr; apply Wr, nth_In; unfold len in Lr; lia. }
  assert (Lx : length (across tables i c) = length ws) by (unfold across; rewrite map_length; unfold len in Hw; lia).
  rewrite Ex; destruct (int_sum_prod B HB (across tables i c) ws #0 0 Lx Wx Hws real_zero) as [F R].
  { unfold across; rewrite map_length, Lt; unfold len in Hb; lia. }
  split; [exact F|]; rewrite R; ring.
Qed.
Print Assumptions C120_whole.

(** An average is not always between the smallest and the largest of the values, not even when the weights add up to one *)
Theorem C120_average_refuted :
  exists (s : Serie F64) x w1 w2 y, repr s 1 (col [x]) /\ is_finite x = true /\ (B2R w1 + B2R w2 = 1)%R /\
  @weigthedSum F64 F64N [s; s] [w1; w2] = Ok (mk 1 [[y]] 3) /\ is_finite y = true /\ (B2R y < B2R x)%R.
Proof.
  set (x := #(2 ^ 53 - 1)); set (w1 := f64_div #3 #8); set (w2 := f64_div #5 #8).
  set (y := f64_add (f64_add #0 (f64_mul x w1)) (f64_mul x w2)).
  exists (mk 1 (col [x]) 3), x, w1, w2, y.
  split; [repr_ex|]; split; [vm_compute; reflexivity|]; split; [|split; [|split; [vm_compute; reflexivity|]]].
  - assert (E1 : B2R w1 = (3 / 8)%R).
    { rewrite <- (SF2R_B2SF 53 1024 w1); replace (B2SF w1) with (SpecFloat.S754_finite false 6755399441055744 (-54)) by (vm_compute; reflexivity).
      unfold SF2R, F2R; cbn [Fnum Fexp cond_Zopp bpow]; change (Z.pow_pos radix2 54) with 18014398509481984; lra. }
    assert (E2 : B2R w2 = (5 / 8)%R).
    { rewrite <- (SF2R_B2SF 53 1024 w2); replace (B2SF w2) with (SpecFloat.S754_finite false 5629499534213120 (-53)) by (vm_compute; reflexivity).
      unfold SF2R, F2R; cbn [Fnum Fexp cond_Zopp bpow]; change (Z.pow_pos radix2 53) with 9007199254740992; lra. }
    rewrite E1, E2; lra.
  - destruct (C61_weighted_sum F64 F64N [mk 1 (col [x]) 3; mk 1 (col [x]) 3] 1 1 [[[x]]; [[x]]] [w1; w2]) as (rows & E & Lr & Rr & V);
      [repeat (apply Forall2_cons; [split; [repr_ex|reflexivity]|]); apply Forall2_nil|discriminate|reflexivity|lia|lia|].
    refine (eq_trans E _); clear E; destruct rows as [|r [|? ?]]; try (unfold len in Lr; cbn in Lr; lia).
    apply Forall_inv in Rr; destruct r as [|a [|? ?]]; try (unfold len in Rr; cbn in Rr; lia).
    specialize (V O O ltac:(lia) ltac:(lia)); rewrite (combination_f64 libm0) in V by reflexivity; unfold at2 in V; cbn [nth] in V; rewrite V; reflexivity.
  - assert (Fx : is_finite x = true) by (vm_compute; reflexivity); assert (Fy : is_finite y = true) by (vm_compute; reflexivity).
    assert (Q : Bltb y x = true) by (vm_compute; reflexivity); exact (proj1 (lt_ok y x Fy Fx) Q).
Qed.
Print Assumptions C120_average_refuted.

(** 2*(3,4) + 5*(-1,10): the hypotheses are met *)
Example C120_ex : exists s1 s2 : Serie F64, one_shape [s1; s2] 2 1 [[[#3; #4]]; [[#(-1); #10]]] /\
  Forall (wholes 10) [[[#3; #4]]; [[#(-1); #10]]] /\ Forall (whole 10) [#2; #5] /\ len [s1; s2] * (10 * 10) <= 2 ^ 53.
Proof.
  exists (mk 2 [[#3; #4]] 3), (mk 2 [[#(-1); #10]] 3); split; [repeat (apply Forall2_cons; [split; [repr_ex|reflexivity]|]); apply Forall2_nil|].
  split; [repeat (apply Forall_cons; [whole_ex|]); apply Forall_nil|]; split; [whole_ex|change (2 * (10 * 10) <= 2 ^ 53); lia].
Qed.
