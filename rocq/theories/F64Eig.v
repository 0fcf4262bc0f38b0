(** * binary64: the result of Jacobi's method. *)
From Coq Require Import Reals Lra Psatz Permutation Sorted.
From Flocq Require Import Core IEEE754.BinarySingleNaN.
From Verif Require Import Base Num Spec F64 F64Facts F64Arith F64Round LinSpec BaseFacts AlgebraFacts RNum Eigen EigenFacts JacobiSpec JacobiFacts Props_Constants.
From Verif Require Import F64Error F64Angle F64Rot F64Jacobi F64Step F64Sweep.
Open Scope R_scope.

(** the entries: at most [M], and off the diagonal zero or not tiny *)
Definition small : R := bpow radix2 (-400).
Definition large : R := bpow radix2 400.
Definition moderate (n : nat) (A : Mat) (M : R) : Prop :=
  small <= M <= large /\ (forall i j, (i < n)%nat -> (j < n)%nat -> Rabs (A i j) <= M) /\
  (forall i j, (i < n)%nat -> (j < n)%nat -> i <> j -> A i j = 0 \/ small <= Rabs (A i j)).

Lemma small_facts : 2 * lo <= small /\ lo <= small * small /\ 32 * (large * large) <= hi / 8 /\ large <= hi / 128 /\ 0 < small /\ small <= 1 /\ 1 <= large.
Proof.
  unfold small, large, lo, hi.
  assert (B : forall e f, (e <= f)%Z -> bpow radix2 e <= bpow radix2 f) by (intros; apply bpow_le; assumption).
  replace (2 * bpow radix2 (-1000)) with (bpow radix2 (1 + -1000)) by (rewrite bpow_plus; reflexivity).
  rewrite <- !bpow_plus.
  replace (32 * bpow radix2 (400 + 400)) with (bpow radix2 (5 + (400 + 400))) by (rewrite (bpow_plus radix2 5); reflexivity).
  replace (bpow radix2 1000 / 8) with (bpow radix2 997) by (change 1000%Z with (997 + 3)%Z; rewrite bpow_plus; change (bpow radix2 3) with 8; field).
  replace (bpow radix2 1000 / 128) with (bpow radix2 993) by (change 1000%Z with (993 + 7)%Z; rewrite bpow_plus; change (bpow radix2 7) with 128; field).
  repeat split; try (apply B; lia); [apply bpow_gt_0|change 1 with (bpow radix2 0); apply B; lia|change 1 with (bpow radix2 0); apply B; lia].
Qed.

Lemma off_large n A M : (n = 2 \/ n = 3)%nat -> moderate n A M -> off n A <= 3 * (M * M).
Proof.
  intros Hn (HM & Ha & _); pose proof small_facts as (_ & _ & _ & _ & S0 & _).
  assert (G : forall i j, (i < n)%nat -> (j < n)%nat -> A i j * A i j <= M * M).
  { intros i j Hi Hj; pose proof (Ha i j Hi Hj) as H; rewrite <- (Rabs_pos_eq M) in H by lra; apply Rsqr_le_abs_1 in H; exact H. }
  pose proof (sq_ge0 M); destruct Hn as [-> | ->].
  - rewrite off2; pose proof (G 0%nat 1%nat ltac:(lia) ltac:(lia)); lra.
  - rewrite off3; pose proof (G 0%nat 1%nat ltac:(lia) ltac:(lia)); pose proof (G 0%nat 2%nat ltac:(lia) ltac:(lia)); pose proof (G 1%nat 2%nat ltac:(lia) ltac:(lia)); lra.
Qed.
Lemma entry_square n A M i j : moderate n A M -> (i < n)%nat -> (j < n)%nat -> i <> j -> A i j = 0 \/ small * small <= A i j * A i j.
Proof.
  intros (_ & _ & H) Hi Hj Hne; destruct (H i j Hi Hj Hne) as [E|E]; [left; exact E|right].
  pose proof small_facts as (_ & _ & _ & _ & S0 & _); rewrite <- (Rabs_pos_eq small) in E by lra; apply Rsqr_le_abs_1 in E; exact E.
Qed.
Lemma off_small n A M : (n = 2 \/ n = 3)%nat -> moderate n A M -> off n A = 0 \/ small * small <= off n A.
Proof.
  intros Hn H; destruct Hn as [-> | ->].
  - rewrite off2; destruct (entry_square _ _ _ 0%nat 1%nat H ltac:(lia) ltac:(lia) ltac:(lia)) as [->|E]; [left; lra|right; exact E].
  - rewrite off3; pose proof (sq_ge0 (A 0%nat 1%nat)); pose proof (sq_ge0 (A 0%nat 2%nat)); pose proof (sq_ge0 (A 1%nat 2%nat)).
    destruct (entry_square _ _ _ 0%nat 1%nat H ltac:(lia) ltac:(lia) ltac:(lia)) as [E1|E1]; [|right; lra].
    destruct (entry_square _ _ _ 0%nat 2%nat H ltac:(lia) ltac:(lia) ltac:(lia)) as [E2|E2]; [|right; lra].
    destruct (entry_square _ _ _ 1%nat 2%nat H ltac:(lia) ltac:(lia) ltac:(lia)) as [E3|E3]; [|right; lra].
    left; rewrite E1, E2, E3; ring.
Qed.
Lemma sizes_ok n A M : (n = 2 \/ n = 3)%nat -> moderate n A M -> off n A <> 0 -> sizes M (sqrt (2 * off n A)) /\ sqrt (2 * off n A) * sqrt (2 * off n A) = 2 * off n A.
Proof.
  intros Hn H Hne; pose proof H as (HM & _); destruct (off_small n A M Hn H) as [E|E]; [contradiction|].
  pose proof (off_large n A M Hn H) as G; pose proof small_facts as (S1 & S2 & S3 & S4 & S5 & S6 & S7).
  pose proof (sq_ge0 small).
  assert (Q : sqrt (2 * off n A) * sqrt (2 * off n A) = 2 * off n A) by (apply sqrt_sqrt; lra).
  assert (MM : M * M <= large * large) by (apply Rmult_le_compat; lra).
  assert (R1 : small <= sqrt (2 * off n A)) by (rewrite <- (sqrt_square small) by lra; apply sqrt_le_1_alt; lra).
  assert (R2 : sqrt (2 * off n A) <= 4 * large) by (rewrite <- (sqrt_square (4 * large)) by lra; apply sqrt_le_1_alt; lra).
  assert (R3 : large * 1 <= large * large) by (apply Rmult_le_compat_l; lra).
  split; [|exact Q]; split; [lra|]; split; [lra|rewrite Q; lra].
Qed.

(** the start *)
Lemma square_start (x : F64) r : is_finite x = true -> Rabs (B2R x) <= r -> lo <= r * r <= hi / 8 -> nearby (f64_mul x x) (B2R x * B2R x) (uu * (r * r)).
Proof. intros F H Hr; pose proof lo_pos; apply (mul_near x x _ _ 0 0 r r (r * r) _ (nearby_self x F) (nearby_self x F) H H); lra. Qed.

Definition fnorm2 (a1 : F64) : F64 := f64_add (f64_of_Z 0) (f64_mul a1 a1).
Definition fnorm3 (a1 a3 a4 : F64) : F64 := f64_add (f64_add (f64_add (f64_of_Z 0) (f64_mul a1 a1)) (f64_mul a3 a3)) (f64_mul a4 a4).
Lemma norm2_near a1 r : is_finite a1 = true -> B2R a1 * B2R a1 <= r * r / 2 -> 0 <= r -> lo <= r * r <= hi / 8 -> nearby (fnorm2 a1) (B2R a1 * B2R a1) (10 * uu * (r * r)).
Proof.
  intros F H Hr Hrr; pose proof lo_pos; pose proof (sq_ge0 (B2R a1)).
  assert (U : 0 <= uu * (r * r) <= / 1000000 * (r * r)) by (split; [apply Rmult_le_pos; unfold uu; lra|apply Rmult_le_compat_r; unfold uu; lra]).
  pose proof (square_start a1 r F (sq_le (B2R a1) r Hr ltac:(lra)) Hrr) as N1; destruct zero_B2R as [Z0 Fz]; pose proof (nearby_self _ Fz) as Nz; rewrite Z0 in Nz.
  unfold fnorm2; rewrite <- (Rplus_0_l (B2R a1 * B2R a1)).
  apply (add_near _ _ _ _ _ _ (r * r) _ Nz N1); try lra; rewrite Rabs_pos_eq by lra; lra.
Qed.
Lemma norm3_near a1 a3 a4 r : is_finite a1 = true -> is_finite a3 = true -> is_finite a4 = true -> B2R a1 * B2R a1 + B2R a3 * B2R a3 + B2R a4 * B2R a4 <= r * r / 2 -> 0 <= r -> lo <= r * r <= hi / 8 ->
  nearby (fnorm3 a1 a3 a4) (B2R a1 * B2R a1 + B2R a3 * B2R a3 + B2R a4 * B2R a4) (10 * uu * (r * r)).
Proof.
  intros F1 F3 F4 H Hr Hrr; pose proof lo_pos; pose proof (sq_ge0 (B2R a1)); pose proof (sq_ge0 (B2R a3)); pose proof (sq_ge0 (B2R a4)).
  assert (U : 0 <= uu * (r * r) <= / 1000000 * (r * r)) by (split; [apply Rmult_le_pos; unfold uu; lra|apply Rmult_le_compat_r; unfold uu; lra]).
  pose proof (square_start a1 r F1 (sq_le (B2R a1) r Hr ltac:(lra)) Hrr) as N1; pose proof (square_start a3 r F3 (sq_le (B2R a3) r Hr ltac:(lra)) Hrr) as N3; pose proof (square_start a4 r F4 (sq_le (B2R a4) r Hr ltac:(lra)) Hrr) as N4.
  destruct zero_B2R as [Z0 Fz]; pose proof (nearby_self _ Fz) as Nz; rewrite Z0 in Nz.
  unfold fnorm3; rewrite <- (Rplus_0_l (B2R a1 * B2R a1)).
  assert (M1 : nearby (f64_add (f64_of_Z 0) (f64_mul a1 a1)) (0 + B2R a1 * B2R a1) (2 * (uu * (r * r)))) by (apply (add_near _ _ _ _ _ _ (r * r) _ Nz N1); try lra; rewrite Rabs_pos_eq by lra; lra).
  assert (M3 : nearby (f64_add (f64_add (f64_of_Z 0) (f64_mul a1 a1)) (f64_mul a3 a3)) (0 + B2R a1 * B2R a1 + B2R a3 * B2R a3) (4 * (uu * (r * r)))) by (apply (add_near _ _ _ _ _ _ (r * r) _ M1 N3); try lra; rewrite Rabs_pos_eq by lra; lra).
  apply (add_near _ _ _ _ _ _ (r * r) _ M3 N4); try lra; rewrite Rabs_pos_eq by lra; lra.
Qed.

Lemma eps_near L : nearby (@eps F64 (f64_num L)) (/ 100000) uu.
Proof.
  destruct (ratio_rnd L 1 100000) as [E F]; try lia; split; [exact F|].
  refine (eq_ind_r (fun x => Rabs (x - / 100000) <= uu) _ E); replace (1 / 100000) with (/ 100000) by lra; replace uu with (uu * 1) by ring.
  apply rnd_err; [rewrite Rabs_pos_eq; lra|apply lo_hi].
Qed.
Lemma identity_F L n : (n = 2 \/ n = 3)%nat -> finites (@identity F64 (f64_num L) (Z.of_nat n)) /\ map B2R (@identity F64 (f64_num L) (Z.of_nat n)) = @identity R r_num (Z.of_nat n).
Proof.
  destruct (f64_of_Z_correct 1 ltac:(lia)) as (E1 & F1 & _); destruct (f64_of_Z_correct 0 ltac:(lia)) as (E0 & F0 & _).
  intros [-> | ->].
  - change (@identity F64 (f64_num L) (Z.of_nat 2)) with [f64_of_Z 1; f64_of_Z 0; f64_of_Z 0; f64_of_Z 1]; split; [all_finite|cbn [map]; rewrite E0, E1; reflexivity].
  - change (@identity F64 (f64_num L) (Z.of_nat 3)) with [f64_of_Z 1; f64_of_Z 0; f64_of_Z 0; f64_of_Z 0; f64_of_Z 1; f64_of_Z 0; f64_of_Z 0; f64_of_Z 0; f64_of_Z 1]; split; [all_finite|cbn [map]; rewrite E0, E1; reflexivity].
Qed.
Lemma fro2_zero n X : (forall i j, (i < n)%nat -> (j < n)%nat -> X i j = 0) -> fro2 n X = 0.
Proof. intros H; unfold fro2; rewrite (upto_ext n _ (fun _ => 0)); [apply upto_0|]; intros i Hi; rewrite (upto_ext n _ (fun _ => 0)); [apply upto_0|]; intros j Hj; rewrite H by assumption; ring. Qed.

(** the result *)
Definition result (n : nat) (A : Mat) (M : R) (a v : list F64) : Prop :=
  finites a /\ finites v /\
  (exists Q B, in_basis n A Q B /\ orthonormal_rows n Q /\ orthonormal_cols n Q /\ fro2 n B <= (3 * M) * (3 * M) /\
    fro2 n (minus (full n (map B2R v)) Q) <= (2 / 1000000000000) * (2 / 1000000000000) /\
    fro2 n (minus (colpk (map B2R a)) B) <= (12 / 1000000000000 * M) * (12 / 1000000000000 * M)) /\
  off n (colpk (map B2R a)) <= 10001 / 1000000000 * off n A.

Lemma fro2_bound3 n A M : (n = 2 \/ n = 3)%nat -> moderate n A M -> fro2 n A <= (3 * M) * (3 * M).
Proof.
  intros Hn (HM & Ha & _); pose proof small_facts as (_ & _ & _ & _ & S0 & _).
  apply Rle_trans with (1 := fro2_bound n A M ltac:(lra) Ha); destruct Hn as [-> | ->]; cbn [INR]; apply Rmult_le_compat; lra.
Qed.
Lemma starts n L a M r nrm : (n = 2 \/ n = 3)%nat -> len a = (Z.of_nat n * (Z.of_nat n + 1) / 2)%Z -> finites a -> moderate n (colpk (map B2R a)) M -> r * r = 2 * off n (colpk (map B2R a)) ->
  0 <= r * r -> nearby nrm (off n (colpk (map B2R a))) (10 * uu * (r * r)) -> finv n (colpk (map B2R a)) M r 0 ((a, @identity F64 (f64_num L) (Z.of_nat n)), nrm).
Proof.
  intros Hn La Fa Hm Hr Hr0 [Fn Nn]; destruct (identity_F L n Hn) as [Fi Ei]; pose proof Hm as (HM & _); pose proof small_facts as (_ & _ & _ & _ & S0 & _).
  assert (La' : len (map B2R a) = (Z.of_nat n * (Z.of_nat n + 1) / 2)%Z) by (unfold len; rewrite map_length; exact La).
  destruct (identity_basis n (map B2R a) 0 Hn La') as (Sh & Hb & Or & Oc); cbn [fst snd] in *.
  assert (UR : 0 <= uu * (r * r)) by (apply Rmult_le_pos; unfold uu; lra).
  unfold finv, amat, vmat, fthr; cbn [fst snd]; rewrite Ei; replace (steps 0) with 1 by (unfold steps; cbn; lra).
  split; [split; cbn [fst snd]; [exact La|]|].
  { destruct Sh as [_ Sv]; cbn [fst snd] in Sv; rewrite <- Ei in Sv; unfold len in *; rewrite map_length in Sv; exact Sv. }
  split; [exact Fa|]; split; [exact Fi|]; split; [exact Fn|]; split; [|split; [lra|lra]].
  exists (full n (@identity R r_num (Z.of_nat n))), (colpk (map B2R a)); split; [exact Hb|]; split; [exact Or|]; split; [exact Oc|].
  split; [apply fro2_bound3; assumption|]; split; rewrite fro2_zero; try (intros; unfold minus; ring); apply sq_ge0.
Qed.

Lemma zero_mul (x : F64) : is_finite x = true -> B2R x = 0 -> is_finite (f64_mul x x) = true /\ B2R (f64_mul x x) = 0.
Proof.
  intros Fx Ex; destruct (mul_ok x x Fx Fx) as [Em Fm]; [rewrite Ex, Rmult_0_l; unfold in_range; rewrite rnd_0, Rabs_R0; apply bpow_gt_0|].
  split; [exact Fm|rewrite Em, Ex, Rmult_0_l; apply rnd_0].
Qed.
Lemma zero_add (x y : F64) : is_finite x = true /\ B2R x = 0 -> is_finite y = true /\ B2R y = 0 -> is_finite (f64_add x y) = true /\ B2R (f64_add x y) = 0.
Proof.
  intros [Fx Ex] [Fy Ey]; destruct (add_ok x y Fx Fy) as [Em Fm]; [rewrite Ex, Ey, Rplus_0_l; unfold in_range; rewrite rnd_0, Rabs_R0; apply bpow_gt_0|].
  split; [exact Fm|rewrite Em, Ex, Ey, Rplus_0_l; apply rnd_0].
Qed.
Lemma jacobi_F L n a M : accurate L -> (n = 2 \/ n = 3)%nat -> len a = (Z.of_nat n * (Z.of_nat n + 1) / 2)%Z -> finites a -> moderate n (colpk (map B2R a)) M ->
  exists a' v' thr d, @jacobi F64 (f64_num L) (Z.of_nat n) a = Ok (((a', v'), thr), d) /\ result n (colpk (map B2R a)) M a' v'.
Proof.
  intros Acc Hn La Fa Hm; set (A := colpk (map B2R a)) in *; pose proof Hm as (HM & _); pose proof small_facts as (S1 & S2 & S3 & S4 & S5 & S6 & S7).
  destruct (identity_F L n Hn) as [Fi Ei].
  assert (G : forall nrm, (off n A = 0 -> is_finite nrm = true /\ B2R nrm = 0) ->
    (forall r, 0 <= r -> r * r = 2 * off n A -> lo <= r * r <= hi / 8 -> nearby nrm (off n A) (10 * uu * (r * r))) ->
    exists a' v' thr d, (if negb (Beqb nrm (f64_of_Z 0)) then @sweeps F64 (f64_num L) (Z.of_nat n) (f64_mul nrm (@eps F64 (f64_num L))) 100 0 ((a, @identity F64 (f64_num L) (Z.of_nat n)), nrm)
      else Ok (((a, @identity F64 (f64_num L) (Z.of_nat n)), nrm), 0%Z)) = Ok (((a', v'), thr), d) /\ result n A M a' v').
  { intros nrm Hz Hnz; destruct zero_B2R as [Z0 Fz].
    assert (Eq : is_finite nrm = true -> Beqb nrm (f64_of_Z 0) = Req_bool (B2R nrm) 0) by (intros F; rewrite (Beqb_correct _ _ _ _ F Fz), Z0; reflexivity).
    destruct (Req_dec (off n A) 0) as [E0|E0].
    - destruct (Hz E0) as [Fn En]; rewrite (Eq Fn), En, Req_bool_true by reflexivity; cbn [negb].
      do 4 eexists; split; [reflexivity|]; split; [exact Fa|]; split; [exact Fi|]; split; [|fold A; rewrite E0; lra].
      assert (La' : len (map B2R a) = (Z.of_nat n * (Z.of_nat n + 1) / 2)%Z) by (unfold len; rewrite map_length; exact La).
      destruct (identity_basis n (map B2R a) 0 Hn La') as (Sh & Hb & Or & Oc); cbn [fst snd] in *.
      exists (full n (@identity R r_num (Z.of_nat n))), A; split; [exact Hb|]; split; [exact Or|]; split; [exact Oc|].
      split; [apply fro2_bound3; assumption|]; rewrite Ei; split; rewrite fro2_zero; try (intros; unfold minus, A; ring); apply sq_ge0.
    - destruct (sizes_ok n A M Hn Hm E0) as [Hsz Hrr]; set (r := sqrt (2 * off n A)) in *; pose proof Hsz as (_ & Hr1 & Hr2); pose proof lo_pos.
      specialize (Hnz r ltac:(lra) Hrr Hr2); pose proof Hnz as [Fn Nn]; apply abs_le in Nn.
      assert (UR : 0 <= uu * (r * r) <= / 1000000000000000 * (r * r)) by (split; [apply Rmult_le_pos; unfold uu; lra|apply Rmult_le_compat_r; unfold uu; lra]).
      rewrite (Eq Fn), Req_bool_false by lra; cbn [negb].
      assert (Nb : nearby (f64_mul nrm (@eps F64 (f64_num L))) (off n A * / 100000) (2 * (uu * (r * r)))).
      { assert (V : 0 < uu < / 1000000) by (unfold uu; lra).
        assert (V2 : uu * (uu * (r * r)) <= / 1000000 * (uu * (r * r))) by (apply Rmult_le_compat_r; lra).
        apply (mul_near _ _ _ _ _ _ (r * r / 2) (/ 100000) (r * r) _ Hnz (eps_near L)).
        - rewrite Rabs_pos_eq; lra.
        - rewrite Rabs_pos_eq; lra.
        - replace ((r * r / 2 + 10 * uu * (r * r)) * (/ 100000 + uu)) with (/ 200000 * (r * r) + / 2 * (uu * (r * r)) + 10 / 100000 * (uu * (r * r)) + 10 * (uu * (uu * (r * r)))) by field; lra.
        - lra.
        - replace (10 * uu * (r * r) * (/ 100000 + uu) + r * r / 2 * uu + uu * (r * r)) with (10 / 100000 * (uu * (r * r)) + 10 * (uu * (uu * (r * r))) + / 2 * (uu * (r * r)) + uu * (r * r)) by field; lra. }
      destruct Nb as [Fb Nb]; apply abs_le in Nb.
      pose proof (starts n L a M r nrm Hn La Fa Hm Hrr ltac:(lra) Hnz) as St; fold A in St.
      destruct (sweeps_F L Acc A M r Hsz n _ Hn Fb ltac:(lra) 100 0 0 _ St) as ([[a' v'] thr] & d & E & Fv & Ht); [cbn [pow]; unfold amat; cbn [fst snd]; fold A; lra|lia|lia|].
      exists a', v', thr, d; split; [exact E|].
      destruct Fv as (_ & F1 & F2 & _ & (Q & B & HB & Or & Oc & FB & EV & EA) & Ho & _); unfold amat, vmat in *; cbn [fst snd] in *.
      pose proof (steps_uu 200 100 ltac:(lia) ltac:(lra)) as Su.
      assert (P : 0 <= steps 200 * 100 * uu * (r * r) <= / 10000000000 * (r * r)) by (split; [apply Rmult_le_pos; lra|apply Rmult_le_compat_r; lra]).
      split; [exact F1|]; split; [exact F2|]; split; [|apply abs_le in Ho; lra].
      exists Q, B; split; [exact HB|]; split; [exact Or|]; split; [exact Oc|]; split; [exact FB|].
      assert (S200 : steps 200 = 201) by (unfold steps; replace (INR 200) with 200 by (rewrite INR_IZR_INZ; reflexivity); lra).
      rewrite S200 in EV, EA; split.
      + apply Rle_trans with (1 := EV); apply Rmult_le_compat; unfold uu; lra.
      + apply Rle_trans with (1 := EA); assert (0 <= 201 * 512 * uu <= 12 / 1000000000000) by (unfold uu; lra).
        assert (0 <= 201 * 512 * uu * M <= 12 / 1000000000000 * M) by (split; [apply Rmult_le_pos; lra|apply Rmult_le_compat_r; lra]).
        apply Rmult_le_compat; lra. }
  destruct Hn as [-> | ->].
  - destruct (len3 a La) as (a0 & a1 & a2 & ->); change (Z.of_nat 2) with 2%Z in *; rewrite jacobi2; apply (G (fnorm2 a1)); rewrite off2; change (A 0%nat 1%nat) with (B2R a1);
      unfold finites in Fa; rewrite !Forall_cons_iff in Fa; destruct Fa as (F0 & F1 & F2 & _).
    + intros E; assert (E1 : B2R a1 = 0) by nra.
      destruct zero_B2R as [Z0 Fz]; unfold fnorm2; apply zero_add; [split; assumption|apply zero_mul; assumption].
    + intros r Hr E Hrr; apply norm2_near; try assumption; lra.
  - destruct (len6 a La) as (a0 & a1 & a2 & a3 & a4 & a5 & ->); change (Z.of_nat 3) with 3%Z in *; rewrite jacobi3; apply (G (fnorm3 a1 a3 a4)); rewrite off3;
      change (A 0%nat 1%nat) with (B2R a1); change (A 0%nat 2%nat) with (B2R a3); change (A 1%nat 2%nat) with (B2R a4);
      unfold finites in Fa; rewrite !Forall_cons_iff in Fa; destruct Fa as (F0 & F1 & F2 & F3 & F4 & F5 & _).
    + intros E; pose proof (sq_ge0 (B2R a1)); pose proof (sq_ge0 (B2R a3)); pose proof (sq_ge0 (B2R a4)).
      assert (E1 : B2R a1 = 0) by nra; assert (E3 : B2R a3 = 0) by nra; assert (E4 : B2R a4 = 0) by nra.
      destruct zero_B2R as [Z0 Fz].
      unfold fnorm3; apply zero_add; [apply zero_add; [apply zero_add; [split; assumption|apply zero_mul; assumption]|apply zero_mul; assumption]|apply zero_mul; assumption].
    + intros r Hr E Hrr; apply norm3_near; try assumption; lra.
Qed.
