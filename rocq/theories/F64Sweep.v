(** * binary64: Jacobi's method converges. *)
From Coq Require Import Reals Lra Psatz.
From Flocq Require Import Core IEEE754.BinarySingleNaN.
From Verif Require Import Base Num Spec F64 F64Facts F64Arith F64Round LinSpec BaseFacts AlgebraFacts Eigen EigenFacts JacobiSpec JacobiFacts Props_Constants.
From Verif Require Import F64Error F64Angle F64Rot F64Jacobi F64Step.
Open Scope R_scope.

Lemma share_near (x : F64) (n : Z) c : is_finite x = true -> (3 <= n <= 6)%Z -> Rabs (B2R x) <= c -> lo <= c <= hi ->
  is_finite (f64_div x (f64_of_Z n)) = true /\ Rabs (B2R (f64_div x (f64_of_Z n)) - B2R x / IZR n) <= uu * c.
Proof.
  intros F Hn Hx Hc; pose proof lo_pos; destruct (f64_of_Z_correct n ltac:(lia)) as (E & Fn & _).
  assert (Hn' : 3 <= IZR n) by (apply IZR_le; lia).
  assert (A : Rabs (B2R x / IZR n) <= c).
  { unfold Rdiv; rewrite Rabs_mult, Rabs_inv, (Rabs_pos_eq (IZR n)) by lra; apply Rle_trans with (Rabs (B2R x) * 1); [|lra].
    apply Rmult_le_compat_l; [apply Rabs_pos|]; rewrite <- Rinv_1; apply Rinv_le_contravar; lra. }
  destruct (div_ok x (f64_of_Z n) F) as [D Fd]; [rewrite E; lra|rewrite E; apply small_range; lra|].
  split; [exact Fd|rewrite D, E; apply rnd_err; lra].
Qed.

Section Sweeps.
  Variable L : Libm.
  Hypothesis Acc : accurate L.
  Variables (A : Mat) (M r : R).
  Hypothesis Hsz : sizes M r.

  Lemma fstepped_inv n l m k t st st' : (k <= 400)%nat -> finv n A M r k st -> fstepped n l m A M r k t st st' -> finv n A M r (S k) st'.
  Proof. intros Hk H [[_ ->]|(_ & H' & _)]; [apply finv_S; assumption|exact H']. Qed.
  Lemma fstepped_off n l m k t st st' : fstepped n l m A M r k t st st' -> off n (amat st') <= off n (amat st) + 80 * uu * (r * r).
  Proof.
    destruct Hsz as (_ & _ & Hr); pose proof lo_pos; assert (0 <= uu * (r * r)) by (apply Rmult_le_pos; [unfold uu; lra|lra]).
    intros [[_ ->]|(_ & _ & E)]; [lra|pose proof (sq_ge0 (amat st l m)); lra].
  Qed.

  Lemma sweep_F n k st : (n = 2 \/ n = 3)%nat -> (k <= 397)%nat -> finv n A M r k st ->
    exists st', @sweep F64 (f64_num L) (Z.of_nat n) st = Ok st' /\ finv n A M r (3 + k) st' /\
      (r * r / 1000000 <= fthr st -> off n (amat st') <= 5 / 6 * off n (amat st) + / 1000000000 * (r * r)).
  Proof.
    intros Hn Hk H; pose proof Hsz as (_ & Hr & Hrr); pose proof lo_pos as LP.
    pose proof (finv_off _ _ _ _ _ _ H Hsz ltac:(lia)) as [Bo Bt].
    pose proof H as (_ & _ & _ & Ft & _ & Ht & _); fold (fthr st) in Bt.
    pose proof (steps_uu k 100 ltac:(lia) ltac:(lra)) as Su.
    assert (P : 0 <= steps k * 100 * uu * (r * r) <= / 10000000000 * (r * r)) by (split; [apply Rmult_le_pos; lra|apply Rmult_le_compat_r; lra]).
    set (et := steps k * 100 * uu * (r * r)) in *; clearbody et.
    assert (UR : 0 <= uu * (r * r) <= / 1000000000000000 * (r * r)) by (split; [apply Rmult_le_pos; unfold uu; lra|apply Rmult_le_compat_r; unfold uu; lra]).
    apply abs_le in Ht.
    destruct Hn as [-> | ->].
    - change (Z.of_nat 2) with 2%Z; rewrite sweep2; fops; destruct (share_near (snd st) 3 (r * r) Ft ltac:(lia)) as [Fs Ns]; [unfold fthr in Bt; lra|lra|].
      set (t := f64_div (snd st) (f64_of_Z 3)) in *; apply abs_le in Ns; fold (fthr st) in Ns.
      destruct (pair_F2 L Acc A M r Hsz k t st ltac:(lia) Fs H) as (s1 & E1 & S1); rewrite E1; cbn [obind]; exists s1; split; [reflexivity|].
      pose proof (fstepped_inv _ _ _ k _ _ _ ltac:(lia) H S1) as H1; split; [cbn [Nat.add]; apply (finv_S _ _ _ _ (S (S k)) _ Hsz ltac:(lia)), (finv_S _ _ _ _ (S k) _ Hsz ltac:(lia)); exact H1|].
      intros Hth; destruct S1 as [[Hlt _]|(_ & _ & E)].
      + exfalso; rewrite off2 in *; pose proof (sq_ge0 (amat st 0%nat 1%nat)); lra.
      + rewrite (off2 (amat st)) in *; pose proof (sq_ge0 (amat st 0%nat 1%nat)); lra.
    - change (Z.of_nat 3) with 3%Z; rewrite sweep3; fops; cbv zeta; destruct (share_near (snd st) 6 (r * r) Ft ltac:(lia)) as [Fs Ns]; [unfold fthr in Bt; lra|lra|].
      set (t := f64_div (snd st) (f64_of_Z 6)) in *; apply abs_le in Ns; fold (fthr st) in Ns.
      destruct (pair_F3_12 L Acc A M r Hsz k t st ltac:(lia) Fs H) as (s1 & E1 & S1); rewrite E1; cbn [obind].
      pose proof (fstepped_inv _ _ _ k _ _ _ ltac:(lia) H S1) as H1.
      destruct (pair_F3_13 L Acc A M r Hsz (S k) t s1 ltac:(lia) Fs H1) as (s2 & E2 & S2); rewrite E2; cbn [obind].
      pose proof (fstepped_inv _ _ _ (S k) _ _ _ ltac:(lia) H1 S2) as H2.
      destruct (pair_F3_23 L Acc A M r Hsz (S (S k)) t s2 ltac:(lia) Fs H2) as (s3 & E3 & S3); rewrite E3; cbn [obind].
      pose proof (fstepped_inv _ _ _ (S (S k)) _ _ _ ltac:(lia) H2 S3) as H3.
      exists s3; split; [reflexivity|split; [exact H3|]]; intros Hth.
      pose proof (fstepped_off _ _ _ _ _ _ _ S2) as O2; pose proof (fstepped_off _ _ _ _ _ _ _ S3) as O3.
      destruct S1 as [[L1 ->]|(G1 & _ & Eo1)]; [|lra].
      destruct S2 as [[L2 ->]|(G2 & _ & Eo2)]; [|lra].
      destruct S3 as [[L3 ->]|(G3 & _ & Eo3)]; [|lra].
      exfalso; rewrite off3 in *.
      set (u := amat st 0%nat 1%nat * _) in *; set (w := amat st 0%nat 2%nat * _) in *; set (z := amat st 1%nat 2%nat * _) in *; lra.
  Qed.

  Lemma power_less : (5 / 6) ^ 65 <= 834 / 100000000.
  Proof. change 65%nat with (S 64); cbn [pow]; pose proof power_small as P; change ((5 / 6) ^ 64) with ((5 / 6) ^ 64) in P; cbn [pow] in P; lra. Qed.

  Lemma sweeps_F n (bound : F64) : (n = 2 \/ n = 3)%nat -> is_finite bound = true -> 49 / 10000000 * (r * r) <= B2R bound ->
    forall left k done st, finv n A M r (3 * k) st -> off n (amat st) <= (5 / 6) ^ k * (r * r / 2) + / 100000000 * (r * r) -> (k <= 65)%nat -> (66 <= k + left)%nat ->
    exists st' d, @sweeps F64 (f64_num L) (Z.of_nat n) bound left done st = Ok (st', d) /\ finv n A M r 200 st' /\ fthr st' <= B2R bound.
  Proof.
    intros Hn Fb Hb; pose proof Hsz as (_ & Hr & Hrr); pose proof lo_pos as LP.
    assert (Mono : forall k st, (k <= 200)%nat -> finv n A M r k st -> finv n A M r 200 st).
    { intros k st Hk H; assert (G : forall d, (d + k <= 200)%nat -> finv n A M r (d + k) st).
      { induction d as [|d IH]; intros Hd; [exact H|cbn [Nat.add]; apply finv_S; [exact Hsz|lia|apply IH; lia]]. }
      specialize (G (200 - k)%nat ltac:(lia)); replace (200 - k + k)%nat with 200%nat in G by lia; exact G. }
    induction left as [|left IH]; intros k done st H Ho Hk Hl; [lia|]; cbn [sweeps]; fops.
    pose proof H as (_ & _ & _ & Ft & _ & Ht & _).
    destruct (Bltb bound (snd st)) eqn:Hlt.
    - apply (lt_ok _ _ Fb Ft) in Hlt; fold (fthr st) in Hlt.
      pose proof (steps_uu (3 * k) 100 ltac:(lia) ltac:(lra)) as Su.
      assert (P : 0 <= steps (3 * k) * 100 * uu * (r * r) <= / 10000000000 * (r * r)) by (split; [apply Rmult_le_pos; lra|apply Rmult_le_compat_r; lra]).
      set (et := steps (3 * k) * 100 * uu * (r * r)) in *; clearbody et; apply abs_le in Ht.
      assert (Hk' : (k < 65)%nat).
      { destruct (Nat.eq_dec k 65) as [->|]; [exfalso|lia].
        assert ((5 / 6) ^ 65 * (r * r / 2) <= 834 / 100000000 * (r * r / 2)) by (apply Rmult_le_compat_r; [lra|exact power_less]); lra. }
      destruct (sweep_F n (3 * k) st Hn ltac:(lia) H) as (s1 & E1 & H1 & C1); rewrite E1; cbn [obind].
      apply (IH (S k)); [replace (3 * S k)%nat with (3 + 3 * k)%nat by lia; exact H1| |lia|lia].
      specialize (C1 ltac:(lra)); cbn [pow]; lra.
    - exists st, done; split; [reflexivity|]; split; [apply (Mono (3 * k)%nat); [lia|exact H]|].
      unfold fthr; apply Rnot_lt_le; intros G; apply (lt_ok _ _ Fb Ft) in G; congruence.
  Qed.
End Sweeps.
