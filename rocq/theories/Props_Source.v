(** * C122: the field of one source (examples/parallel-postprocess) in exact arithmetic. *)
From Coq Require Import Reals Lra Psatz.
From Flocq Require Import Core.
From Verif Require Import Base Num Serie Spec BaseFacts AlgebraFacts Examples RNum LinSpec Props_Examples.
Open Scope Z_scope.
Open Scope R_scope.

(** what the function computes, in powers of the distance *)
Definition tensor (r u0 u1 u2 dx dy dz : R) : list R :=
  let q3 := / (r * r * r) in
  let q5 := / (r * r * r * (r * r)) in
  let D1 := 2 * q3 - 3 * q5 * (dx * dx) in
  let D2 := 2 * q3 - 3 * q5 * (dy * dy) in
  let D3 := 2 * q3 - 3 * q5 * (dz * dz) in
  let D4 := - (3 * q5 * (dx * dy)) in
  let D5 := - (3 * q5 * (dy * dz)) in
  let D6 := - (3 * q5 * (dx * dz)) in
  let ex := u0 * D1 + u1 * D4 + u2 * D6 in
  let ey := u1 * D2 + u0 * D4 + u2 * D5 in
  let ez := u2 * D3 + u0 * D6 + u1 * D5 in
  let t := ex + ey + ez in
  [2 * ex + t; (u0 + u1) * D4 - (u0 + u1) * q3; (u0 + u2) * D6 - (u0 + u2) * q3;
   2 * ey + t; (u1 + u2) * D5 - (u1 + u2) * q3; 2 * ez + t].
Definition dist3 (dx dy dz : R) : R := sqrt (dx * dx + dy * dy + dz * dz).
Definition field3 (u0 u1 u2 dx dy dz : R) : list R :=
  let r := dist3 dx dy dz in
  if Rlt_bool r (1 / 10000000000) then [0; 0; 0; 0; 0; 0] else tensor r u0 u1 u2 dx dy dz.

Lemma list6 {A} (a b c d e f a' b' c' d' e' f' : A) : a = a' -> b = b' -> c = c' -> d = d' -> e = e' -> f = f' -> [a; b; c; d; e; f] = [a'; b'; c'; d'; e'; f'].
Proof. intros; subst; reflexivity. Qed.

Lemma stress_field p0 p1 p2 u0 u1 u2 x y z :
  @stress R r_num (mkSource [p0; p1; p2] [u0; u1; u2]) [x; y; z] = Ok (field3 u0 u1 u2 (x - p0) (y - p1) (z - p2)).
Proof.
  unfold stress, field3; cbn [src_pos src_U].
  change (rd [x; y; z] 0) with (Ok x); change (rd [x; y; z] 1) with (Ok y); change (rd [x; y; z] 2) with (Ok z).
  change (rd [p0; p1; p2] 0) with (Ok p0); change (rd [p0; p1; p2] 1) with (Ok p1); change (rd [p0; p1; p2] 2) with (Ok p2).
  change (rd [u0; u1; u2] 0) with (Ok u0); change (rd [u0; u1; u2] 1) with (Ok u1); change (rd [u0; u1; u2] 2) with (Ok u2).
  unfold n_ratio, nu, mu, n_ratio; cbn [obind n_add n_sub n_mul n_div n_opp n_sqrt n_ltb n_of_Z r_num].
  fold (dist3 (x - p0) (y - p1) (z - p2)); set (r := dist3 _ _ _).
  destruct (Rlt_bool_spec r (1 / 10000000000)) as [H|H]; [reflexivity|].
  assert (Hr : r <> 0) by lra; unfold tensor; generalize (x - p0) (y - p1) (z - p2); intros dx dy dz.
  f_equal; apply list6; cbv [n0 n_of_Z r_num]; try (field; lra).
Qed.

(** ** Specification: what a tensor is *)
Definition source (p u : list R) : @Source R := mkSource p u.
Definition plus3 (a b : list R) : list R := map2 Rplus a b.
Definition times (c : R) (a : list R) : list R := map (Rmult c) a.
Definition far (a b : list R) : Prop := match a, b with [a0; a1; a2], [b0; b1; b2] => 1 / 10000000000 <= dist3 (a0 - b0) (a1 - b1) (a2 - b2) | _, _ => False end.

(** The stress depends linearly on the vector of the source. *)
Theorem C122_linear_partial :
  forall p u v at_ a b, len p = 3%Z -> len u = 3%Z -> len v = 3%Z -> len at_ = 3%Z ->
  exists t t', @stress R r_num (source p u) at_ = Ok t /\ @stress R r_num (source p v) at_ = Ok t' /\ len t = 6%Z /\ len t' = 6%Z /\
  @stress R r_num (source p (plus3 (times a u) (times b v))) at_ = Ok (plus3 (times a t) (times b t')).
Proof.
  intros p u v at_ a b Hp Hu Hv Ha.
  destruct (len3 p Hp) as (p0 & p1 & p2 & ->); destruct (len3 u Hu) as (u0 & u1 & u2 & ->); destruct (len3 v Hv) as (v0 & v1 & v2 & ->); destruct (len3 at_ Ha) as (x & y & z & ->).
  unfold source; change (plus3 (times a [u0; u1; u2]) (times b [v0; v1; v2])) with [a * u0 + b * v0; a * u1 + b * v1; a * u2 + b * v2].
  do 2 eexists; rewrite !stress_field; split; [reflexivity|]; split; [reflexivity|].
  generalize (x - p0) (y - p1) (z - p2); intros dx dy dz; unfold field3; destruct (Rlt_bool _ _).
  - split; [reflexivity|]; split; [reflexivity|]; unfold plus3, times; cbn [map map2]; rewrite !Rmult_0_r, Rplus_0_r; reflexivity.
  - split; [reflexivity|]; split; [reflexivity|]; unfold tensor, plus3, times; cbn [map map2].
    generalize (/ (dist3 dx dy dz * dist3 dx dy dz * dist3 dx dy dz)) (/ (dist3 dx dy dz * dist3 dx dy dz * dist3 dx dy dz * (dist3 dx dy dz * dist3 dx dy dz))); intros q3 q5.
    f_equal; apply list6; ring.
Qed.
Print Assumptions C122_linear_partial.

(** It depends on the position relative to the source only, and is the same on both sides of it. *)
Theorem C122_relative_partial :
  forall p u d e, len p = 3%Z -> len u = 3%Z -> len d = 3%Z -> len e = 3%Z ->
  @stress R r_num (source (plus3 p e) u) (plus3 (plus3 p d) e) = @stress R r_num (source p u) (plus3 p d) /\
  @stress R r_num (source p u) (plus3 p (times (-1) d)) = @stress R r_num (source p u) (plus3 p d).
Proof.
  intros p u d e Hp Hu Hd He.
  destruct (len3 p Hp) as (p0 & p1 & p2 & ->); destruct (len3 u Hu) as (u0 & u1 & u2 & ->); destruct (len3 d Hd) as (d0 & d1 & d2 & ->); destruct (len3 e He) as (e0 & e1 & e2 & ->).
  unfold source, plus3, times; cbn [map map2]; rewrite !stress_field; split; f_equal.
  - replace (p0 + d0 + e0 - (p0 + e0)) with (p0 + d0 - p0) by ring; replace (p1 + d1 + e1 - (p1 + e1)) with (p1 + d1 - p1) by ring;
    replace (p2 + d2 + e2 - (p2 + e2)) with (p2 + d2 - p2) by ring; reflexivity.
  - replace (p0 + -1 * d0 - p0) with (- d0) by ring; replace (p1 + -1 * d1 - p1) with (- d1) by ring; replace (p2 + -1 * d2 - p2) with (- d2) by ring.
    replace (p0 + d0 - p0) with d0 by ring; replace (p1 + d1 - p1) with d1 by ring; replace (p2 + d2 - p2) with d2 by ring.
    unfold field3, dist3; replace (- d0 * - d0 + - d1 * - d1 + - d2 * - d2) with (d0 * d0 + d1 * d1 + d2 * d2) by ring.
    destruct (Rlt_bool _ _); [reflexivity|]; unfold tensor; apply list6; ring.
Qed.
Print Assumptions C122_relative_partial.

(** It falls off with the third power of the distance, and is taken as zero within 1e-10 of the source. *)
Theorem C122_fall_off_partial :
  forall p u d c, len p = 3%Z -> len u = 3%Z -> len d = 3%Z -> 0 < c -> far (plus3 p d) p -> far (plus3 p (times c d)) p ->
  exists t, @stress R r_num (source p u) (plus3 p d) = Ok t /\ @stress R r_num (source p u) (plus3 p (times c d)) = Ok (times (/ (c * c * c)) t).
Proof.
  intros p u d c Hp Hu Hd Hc.
  destruct (len3 p Hp) as (p0 & p1 & p2 & ->); destruct (len3 u Hu) as (u0 & u1 & u2 & ->); destruct (len3 d Hd) as (d0 & d1 & d2 & ->).
  unfold source, plus3, times, far; cbn [map map2]; rewrite !stress_field.
  replace (p0 + c * d0 - p0) with (c * d0) by ring; replace (p1 + c * d1 - p1) with (c * d1) by ring; replace (p2 + c * d2 - p2) with (c * d2) by ring.
  replace (p0 + d0 - p0) with d0 by ring; replace (p1 + d1 - p1) with d1 by ring; replace (p2 + d2 - p2) with d2 by ring.
  intros F1 F2; eexists; split; [reflexivity|]; unfold field3; rewrite !Rlt_bool_false by assumption.
  assert (E : dist3 (c * d0) (c * d1) (c * d2) = c * dist3 d0 d1 d2).
  { unfold dist3; replace (c * d0 * (c * d0) + c * d1 * (c * d1) + c * d2 * (c * d2)) with (c * c * (d0 * d0 + d1 * d1 + d2 * d2)) by ring.
    rewrite sqrt_mult_alt by nra; rewrite sqrt_square by lra; reflexivity. }
  rewrite E; assert (Hr : dist3 d0 d1 d2 <> 0) by lra; generalize dependent (dist3 d0 d1 d2); intros r F1 _ Hr.
  assert (Hc0 : c <> 0) by lra.
  unfold tensor; cbn [map].
  replace (/ (c * r * (c * r) * (c * r))) with (/ (c * c * c) * / (r * r * r)) by (field; auto).
  replace (/ (c * r * (c * r) * (c * r) * (c * r * (c * r)))) with (/ (c * c * c) * (/ (c * c) * / (r * r * r * (r * r)))) by (field; auto).
  assert (Hcc : / (c * c) * (c * c) = 1) by (field; auto).
  f_equal; apply list6; field; auto.
Qed.
Print Assumptions C122_fall_off_partial.

Theorem C122_near_partial :
  forall p u at_, len p = 3%Z -> len u = 3%Z -> len at_ = 3%Z -> ~ far at_ p -> @stress R r_num (source p u) at_ = Ok [0; 0; 0; 0; 0; 0].
Proof.
  intros p u at_ Hp Hu Ha.
  destruct (len3 p Hp) as (p0 & p1 & p2 & ->); destruct (len3 u Hu) as (u0 & u1 & u2 & ->); destruct (len3 at_ Ha) as (x & y & z & ->).
  unfold far, source; intros H; rewrite stress_field; unfold field3; rewrite Rlt_bool_true by lra; reflexivity.
Qed.
Print Assumptions C122_near_partial.
Example C122_ex :
  far [1; 0; 0] [0; 0; 0] /\ far (plus3 [0; 0; 0] (times 2 [1; 0; 0])) [0; 0; 0] /\ ~ far [0; 0; 0] [0; 0; 0] /\
  @stress R r_num (source [0; 0; 0] [1; 0; 0]) [1; 0; 0] = Ok [-3; -1; -1; -1; 0; -1].
Proof.
  assert (S : forall c, 0 <= c -> dist3 c 0 0 = c).
  { intros c Hc; unfold dist3; replace (c * c + 0 * 0 + 0 * 0) with (c * c) by ring; apply sqrt_square; exact Hc. }
  unfold far, plus3, times; cbn [map map2]; repeat split.
  - replace (1 - 0) with 1 by ring; replace (0 - 0) with 0 by ring; rewrite S; lra.
  - replace (0 + 2 * 1 - 0) with 2 by ring; replace (0 + 2 * 0 - 0) with 0 by ring; rewrite S; lra.
  - replace (0 - 0) with 0 by ring; rewrite S; lra.
  - unfold source; rewrite stress_field; replace (1 - 0) with 1 by ring; replace (0 - 0) with 0 by ring.
    unfold field3; rewrite S by lra; rewrite Rlt_bool_false by lra; unfold tensor; f_equal; apply list6; field.
Qed.

(** ** Two laws of physics that the field does not obey *)
Definition origin : list R := [0; 0; 0].
(** turning the source's vector and the point by a half turn about the z axis turns the tensor *)
Definition half_turn (v : list R) : list R := match v with [x; y; z] => [- x; - y; z] | _ => v end.
Definition half_turn_tensor (t : list R) : list R := match t with [xx; xy; xz; yy; yz; zz] => [xx; xy; - xz; yy; - yz; zz] | _ => t end.
Definition isotropic : Prop :=
  forall u d t, len u = 3%Z -> len d = 3%Z -> far d origin -> @stress R r_num (source origin u) d = Ok t ->
  @stress R r_num (source origin (half_turn u)) (half_turn d) = Ok (half_turn_tensor t).
Theorem C122_isotropic_refuted : ~ isotropic.
Proof.
  destruct C122_ex as (F & _ & _ & E); intros H; specialize (H [1; 0; 0] [1; 0; 0] _ eq_refl eq_refl F E).
  unfold half_turn, source, origin in H; rewrite stress_field in H; injection H as H; revert H; unfold field3.
  assert (S : dist3 (-1 - 0) (- 0 - 0) (0 - 0) = 1).
  { unfold dist3; replace ((-1 - 0) * (-1 - 0) + (- 0 - 0) * (- 0 - 0) + (0 - 0) * (0 - 0)) with (1 * 1) by ring; apply sqrt_square; lra. }
  change (- (1)) with (-1); rewrite S, Rlt_bool_false by lra; unfold tensor, half_turn_tensor; intros H.
  apply (f_equal (fun l => nth 0 l 0)) in H; cbn [nth] in H; revert H; replace (1 * 1 * 1) with 1 by ring; replace (1 * (1 * 1)) with 1 by ring; rewrite Rinv_1; lra.
Qed.
Print Assumptions C122_isotropic_refuted.

(** the tensor field of one source is in equilibrium away from the source: the divergence of its first row is zero *)
Definition component (c : nat) (u at_ : list R) : R := match @stress R r_num (source origin u) at_ with Ok t => nth c t 0 | _ => 0 end.
Definition in_equilibrium : Prop :=
  forall u x y z l1 l2 l3, len u = 3%Z -> far [x; y; z] origin ->
  derivable_pt_lim (fun v => component 0 u [v; y; z]) x l1 ->
  derivable_pt_lim (fun v => component 1 u [x; v; z]) y l2 ->
  derivable_pt_lim (fun v => component 2 u [x; y; v]) z l3 ->
  l1 + l2 + l3 = 0.

Lemma component_field c u0 u1 u2 x y z : component c [u0; u1; u2] [x; y; z] = nth c (field3 u0 u1 u2 x y z) 0.
Proof. unfold component, source, origin; rewrite stress_field, !Rminus_0_r; reflexivity. Qed.

Lemma root_slope : derivable_pt_lim (fun v => sqrt (1 + v * v)) 0 0.
Proof.
  assert (A : derivable_pt_lim (fun v => 1 + v * v) 0 0).
  { replace 0 with (0 + (1 * id 0 + id 0 * 1)) at 2 by (unfold id; ring).
    apply (derivable_pt_lim_plus (fct_cte 1) (id * id)%F); [apply derivable_pt_lim_const|].
    apply derivable_pt_lim_mult; apply derivable_pt_lim_id. }
  replace 0 with (/ (2 * sqrt (1 + 0 * 0)) * 0) at 2 by ring.
  apply (derivable_pt_lim_comp (fun v => 1 + v * v) sqrt); [exact A|].
  apply derivable_pt_lim_sqrt; lra.
Qed.
Lemma side_slope : derivable_pt_lim (fun v => let r := sqrt (1 + v * v) in (-3 * v - r * r) / (r * r * r * (r * r))) 0 (-3).
Proof.
  set (r := fun v => sqrt (1 + v * v)); pose proof root_slope as D; fold r in D.
  assert (R0 : r 0 = 1) by (unfold r; replace (1 + 0 * 0) with (1 * 1) by ring; apply sqrt_square; lra).
  assert (D2 : derivable_pt_lim (r * r)%F 0 0).
  { replace 0 with (0 * r 0 + r 0 * 0) at 2 by ring; apply derivable_pt_lim_mult; exact D. }
  assert (D3 : derivable_pt_lim (r * r * r)%F 0 0).
  { replace 0 with (0 * r 0 + (r * r)%F 0 * 0) at 2 by ring; apply derivable_pt_lim_mult; [exact D2|exact D]. }
  assert (D5 : derivable_pt_lim (r * r * r * (r * r))%F 0 0).
  { replace 0 with (0 * (r * r)%F 0 + (r * r * r)%F 0 * 0) at 2 by ring; apply derivable_pt_lim_mult; [exact D3|exact D2]. }
  assert (N : derivable_pt_lim (mult_real_fct (-3) id - r * r)%F 0 (-3 * 1 - 0)).
  { apply derivable_pt_lim_minus; [apply derivable_pt_lim_scal, derivable_pt_lim_id|exact D2]. }
  pose proof (derivable_pt_lim_div _ _ 0 _ _ N D5) as Q; cbv beta in Q.
  assert (V : (r * r * r * (r * r))%F 0 = 1) by (unfold mult_fct; rewrite R0; ring).
  match type of Q with _ -> derivable_pt_lim _ _ ?l => assert (El : l = -3) by (rewrite V; unfold Rsqr; field); rewrite El in Q end.
  apply Q; rewrite V; lra.
Qed.
Lemma axis_slope : derivable_pt_lim (fun v => -3 / (v * v * v)) 1 9.
Proof.
  assert (D2 : derivable_pt_lim (id * id)%F 1 (1 * id 1 + id 1 * 1)) by (apply derivable_pt_lim_mult; apply derivable_pt_lim_id).
  assert (D3 : derivable_pt_lim (id * id * id)%F 1 ((1 * id 1 + id 1 * 1) * id 1 + (id * id)%F 1 * 1)) by (apply derivable_pt_lim_mult; [exact D2|apply derivable_pt_lim_id]).
  pose proof (derivable_pt_lim_div _ _ 1 _ _ (derivable_pt_lim_const (-3) 1) D3) as Q; cbv beta in Q.
  assert (V : (id * id * id)%F 1 = 1) by (unfold mult_fct, id; ring).
  match type of Q with _ -> derivable_pt_lim _ _ ?l => assert (El : l = 9) by (unfold fct_cte, mult_fct, id, Rsqr; field); rewrite El in Q end.
  apply Q; rewrite V; lra.
Qed.

Theorem C122_equilibrium_refuted : ~ in_equilibrium.
Proof.
  intros H; assert (F : far [1; 0; 0] origin) by apply C122_ex.
  assert (A : derivable_pt_lim (fun v => component 0 [1; 0; 0] [v; 0; 0]) 1 9).
  { apply (derivable_pt_lim_locally_ext (fun v => -3 / (v * v * v)) _ 1 (1 / 2) 2 9); [lra| |exact axis_slope].
    intros v Hv; rewrite component_field; unfold field3.
    assert (S : dist3 v 0 0 = v) by (unfold dist3; replace (v * v + 0 * 0 + 0 * 0) with (v * v) by ring; apply sqrt_square; lra).
    rewrite S, Rlt_bool_false by lra; unfold tensor; cbn [nth]; field; lra. }
  assert (P : forall v, 1 <= sqrt (1 + v * v)) by (intros v; rewrite <- sqrt_1 at 1; apply sqrt_le_1_alt; nra).
  assert (B : derivable_pt_lim (fun v => component 1 [1; 0; 0] [1; v; 0]) 0 (-3)).
  { apply (derivable_pt_lim_ext (fun v => let r := sqrt (1 + v * v) in (-3 * v - r * r) / (r * r * r * (r * r)))); [|exact side_slope].
    intros v; rewrite component_field; unfold field3; cbv zeta.
    assert (S : dist3 1 v 0 = sqrt (1 + v * v)) by (unfold dist3; f_equal; ring).
    specialize (P v); rewrite S, Rlt_bool_false by lra; unfold tensor; cbn [nth]; field; lra. }
  assert (C : derivable_pt_lim (fun v => component 2 [1; 0; 0] [1; 0; v]) 0 (-3)).
  { apply (derivable_pt_lim_ext (fun v => let r := sqrt (1 + v * v) in (-3 * v - r * r) / (r * r * r * (r * r)))); [|exact side_slope].
    intros v; rewrite component_field; unfold field3; cbv zeta.
    assert (S : dist3 1 0 v = sqrt (1 + v * v)) by (unfold dist3; f_equal; ring).
    specialize (P v); rewrite S, Rlt_bool_false by lra; unfold tensor; cbn [nth]; field; lra. }
  specialize (H [1; 0; 0] 1 0 0 9 (-3) (-3) eq_refl F A B C); lra.
Qed.
Print Assumptions C122_equilibrium_refuted.
