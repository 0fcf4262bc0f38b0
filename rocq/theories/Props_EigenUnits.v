(** * C143: eigenvalues and eigenvectors under a change of units and of the mean stress. *)
From Verif Require Import Base Num Serie Spec BaseFacts SerieFacts Functional FunctionalFacts Mathf MathFacts MinMaxFacts OrderFacts Props_MinMax Views Algebra AlgebraFacts.
From Verif Require Import RNum LinSpec Props_Functional Props_Algebra Eigen EigenFacts JacobiSpec JacobiFacts Props_Eigen.
From Coq Require Import Reals Lra Permutation Sorted.
From Flocq Require Import Core.Raux.
Open Scope Z_scope.

Section Affine.
  Variables k t : R.
  Hypothesis Hk : k <> 0%R.
  (** k A + t I on packed matrices *)
  Definition aff (a : list R) : list R :=
    match a with
    | [a0; a1; a2] => [k * a0 + t; k * a1; k * a2 + t]%R
    | [a0; a1; a2; a3; a4; a5] => [k * a0 + t; k * a1; k * a2 + t; k * a3; k * a4; k * a5 + t]%R
    | _ => a
    end.
  Definition aff_st (st : @jacobi_state R) : @jacobi_state R := ((aff (fst (fst st)), snd (fst st)), (k * k * snd st)%R).

  Lemma kk_pos : (0 < k * k)%R.
  Proof. apply Rsqr_pos_lt in Hk; exact Hk. Qed.
  Lemma ltb_kk x y : Rlt_bool (k * k * x) (k * k * y) = Rlt_bool x y.
  Proof. pose proof kk_pos; destruct (Rlt_bool_spec x y); [apply Rlt_bool_true|apply Rlt_bool_false]; nra. Qed.
  Lemma eqb_k x : Req_bool (k * x) 0 = Req_bool x 0.
  Proof.
    destruct (Req_bool_spec x 0) as [->|N]; [apply Req_bool_true; ring|apply Req_bool_false].
    intros E; apply Rmult_integral in E; destruct E; contradiction.
  Qed.
  Lemma angle_aff x a b : @angle R r_num (k * x)%R (k * a + t)%R (k * b + t)%R = @angle R r_num x a b.
  Proof.
    unfold angle; cbn [n_sub n_add n_mul n_div n_opp n_atan n_pi n_eqb n_of_Z r_num].
    replace (k * a + t - (k * b + t))%R with (k * (a - b))%R by ring; rewrite eqb_k.
    destruct (Req_bool_spec (a - b) 0) as [E|N]; [reflexivity|].
    replace ((k * x + k * x) / (k * (a - b)))%R with ((x + x) / (a - b))%R by (field; split; assumption); reflexivity.
  Qed.
  Lemma abs_aff th x : Rabs (k * k * th - k * x * (k * x)) = (k * k * Rabs (th - x * x))%R.
  Proof.
    replace (k * k * th - k * x * (k * x))%R with (k * k * (th - x * x))%R by ring; rewrite Rabs_mult, (Rabs_pos_eq (k * k)); [reflexivity|].
    apply Rlt_le, kk_pos.
  Qed.
  Lemma ok3 (a a' v v' : list R) (th th' : R) : a = a' -> v = v' -> th = th' -> Ok ((a, v), th) = Ok ((a', v'), th').
  Proof. congruence. Qed.
  Ltac rot := cbv zeta; rewrite angle_aff, abs_aff; unfold aff_st, aff; cbn [fst snd];
    match goal with |- context [@angle R r_num ?x ?a ?b] => generalize (sin2_cos2 (@angle R r_num x a b));
      generalize (sin (@angle R r_num x a b)), (cos (@angle R r_num x a b)) end;
    unfold Rsqr; let s := fresh in let c := fresh in let SC := fresh in intros s c SC;
    replace (c * c)%R with (1 - s * s)%R by lra; apply ok3; [repeat (apply (f_equal2 cons); [ring|]); reflexivity|reflexivity|reflexivity].
  Lemma pair_aff n l m th st st' : (n = 2 /\ l = 1 /\ m = 2) \/ (n = 3 /\ (l = 1 /\ m = 2 \/ l = 1 /\ m = 3 \/ l = 2 /\ m = 3)) -> shaped n st ->
    @pair_step R r_num n th st l m = Ok st' -> @pair_step R r_num n (k * k * th)%R (aff_st st) l m = Ok (aff_st st').
  Proof.
    intros [(-> & -> & ->)|(-> & H)] Sh.
    - destruct (shaped2 st Sh) as (a0 & a1 & a2 & v0 & v1 & v2 & v3 & thr & ->); unfold aff_st at 1; cbn [fst snd aff]; rewrite !pair2.
      cbn [n_sub n_add n_mul n_div n_opp n_abs n_sin n_cos n_ltb n_of_Z r_num]; replace (k * a1 * (k * a1))%R with (k * k * (a1 * a1))%R by ring; rewrite ltb_kk.
      destruct (Rlt_bool (a1 * a1) th); intros E; injection E as <-; [reflexivity|].
      replace (k * k * (a1 * a1))%R with (k * a1 * (k * a1))%R by ring; rot.
    - destruct (shaped3 st Sh) as (a0 & a1 & a2 & a3 & a4 & a5 & v0 & v1 & v2 & v3 & v4 & v5 & v6 & v7 & v8 & thr & ->); unfold aff_st at 1; cbn [fst snd aff].
      destruct H as [[-> ->]|[[-> ->]|[-> ->]]].
      + rewrite !pair3_12; cbn [n_sub n_add n_mul n_div n_opp n_abs n_sin n_cos n_ltb n_of_Z r_num]; replace (k * a1 * (k * a1))%R with (k * k * (a1 * a1))%R by ring; rewrite ltb_kk.
        destruct (Rlt_bool (a1 * a1) th); intros E; injection E as <-; [reflexivity|].
        replace (k * k * (a1 * a1))%R with (k * a1 * (k * a1))%R by ring; rot.
      + rewrite !pair3_13; cbn [n_sub n_add n_mul n_div n_opp n_abs n_sin n_cos n_ltb n_of_Z r_num]; replace (k * a3 * (k * a3))%R with (k * k * (a3 * a3))%R by ring; rewrite ltb_kk.
        destruct (Rlt_bool (a3 * a3) th); intros E; injection E as <-; [reflexivity|].
        replace (k * k * (a3 * a3))%R with (k * a3 * (k * a3))%R by ring; rot.
      + rewrite !pair3_23; cbn [n_sub n_add n_mul n_div n_opp n_abs n_sin n_cos n_ltb n_of_Z r_num]; replace (k * a4 * (k * a4))%R with (k * k * (a4 * a4))%R by ring; rewrite ltb_kk.
        destruct (Rlt_bool (a4 * a4) th); intros E; injection E as <-; [reflexivity|].
        replace (k * k * (a4 * a4))%R with (k * a4 * (k * a4))%R by ring; rot.
  Qed.
  Lemma sweep_aff n st st' : n = 2 \/ n = 3 -> shaped n st -> @sweep R r_num n st = Ok st' -> @sweep R r_num n (aff_st st) = Ok (aff_st st').
  Proof.
    intros [-> | ->] Sh.
    - rewrite !sweep2; cbn [n_div n_of_Z r_num]; replace (snd (aff_st st) / 3)%R with (k * k * (snd st / 3))%R by (unfold aff_st; cbn [snd]; field).
      destruct (@pair_shaped R r_num 2 1 2 (snd st / 3)%R st ltac:(lia) Sh) as (s1 & E1 & S1); rewrite E1, (pair_aff 2 1 2 _ st s1 ltac:(lia) Sh E1).
      cbn [obind]; intros E; injection E as <-; reflexivity.
    - rewrite !sweep3; cbv zeta; cbn [n_div n_of_Z r_num]; replace (snd (aff_st st) / 6)%R with (k * k * (snd st / 6))%R by (unfold aff_st; cbn [snd]; field).
      set (th := (snd st / 6)%R).
      destruct (@pair_shaped R r_num 3 1 2 th st ltac:(lia) Sh) as (s1 & E1 & S1); rewrite E1, (pair_aff 3 1 2 _ st s1 ltac:(lia) Sh E1); cbn [obind].
      destruct (@pair_shaped R r_num 3 1 3 th s1 ltac:(lia) S1) as (s2 & E2 & S2); rewrite E2, (pair_aff 3 1 3 _ s1 s2 ltac:(lia) S1 E2); cbn [obind].
      destruct (@pair_shaped R r_num 3 2 3 th s2 ltac:(lia) S2) as (s3 & E3 & S3); rewrite E3, (pair_aff 3 2 3 _ s2 s3 ltac:(lia) S2 E3); cbn [obind].
      intros E; injection E as <-; reflexivity.
  Qed.
  Lemma sweeps_aff n bound left : n = 2 \/ n = 3 -> forall done st st' d, shaped n st -> @sweeps R r_num n bound left done st = Ok (st', d) ->
    @sweeps R r_num n (k * k * bound)%R left done (aff_st st) = Ok (aff_st st', d).
  Proof.
    intros Hn; induction left as [|left IH]; intros done st st' d Sh; cbn [sweeps]; [intros E; injection E as <- <-; reflexivity|].
    cbn [n_ltb r_num]; change (snd (aff_st st)) with (k * k * snd st)%R; rewrite ltb_kk.
    destruct (Rlt_bool bound (snd st)); [|intros E; injection E as <- <-; reflexivity].
    destruct (@sweep_shaped R r_num n st Hn Sh) as (s1 & E1 & S1); rewrite E1, (sweep_aff n st s1 Hn Sh E1); cbn [obind]; apply IH; exact S1.
  Qed.
  Lemma jacobi_aff n a st d : n = 2 \/ n = 3 -> len a = n * (n + 1) / 2 -> @jacobi R r_num n a = Ok (st, d) -> @jacobi R r_num n (aff a) = Ok (aff_st st, d).
  Proof.
    intros [-> | ->] L.
    - destruct (len3 a L) as (a0 & a1 & a2 & ->); cbn [aff]; rewrite !jacobi2; cbv zeta; cbn [n_add n_mul n_eqb n_of_Z r_num].
      replace (0 + k * a1 * (k * a1))%R with (k * (k * (0 + a1 * a1)))%R by ring; rewrite !eqb_k; set (nr := (0 + a1 * a1)%R).
      replace (k * (k * nr))%R with (k * k * nr)%R by ring.
      destruct (negb _); [|intros E; injection E as <- <-; reflexivity].
      intros E; replace (k * k * nr * @eps R r_num)%R with (k * k * (nr * @eps R r_num))%R by ring.
      apply (sweeps_aff 2 (nr * @eps R r_num)%R 100 ltac:(lia) 0 (([a0; a1; a2], @identity R r_num 2), nr)); [split; reflexivity|exact E].
    - destruct (len6 a L) as (a0 & a1 & a2 & a3 & a4 & a5 & ->); cbn [aff]; rewrite !jacobi3; cbv zeta; cbn [n_add n_mul n_eqb n_of_Z r_num].
      replace (0 + k * a1 * (k * a1) + k * a3 * (k * a3) + k * a4 * (k * a4))%R with (k * (k * (0 + a1 * a1 + a3 * a3 + a4 * a4)))%R by ring; rewrite !eqb_k; set (nr := (0 + a1 * a1 + a3 * a3 + a4 * a4)%R).
      replace (k * (k * nr))%R with (k * k * nr)%R by ring.
      destruct (negb _); [|intros E; injection E as <- <-; reflexivity].
      intros E; replace (k * k * nr * @eps R r_num)%R with (k * k * (nr * @eps R r_num))%R by ring.
      apply (sweeps_aff 3 (nr * @eps R r_num)%R 100 ltac:(lia) 0 (([a0; a1; a2; a3; a4; a5], @identity R r_num 3), nr)); [split; reflexivity|exact E].
  Qed.
  Definition f (x : R) : R := (k * x + t)%R.
  (** rows of the flat n x n matrix [w'] are those of [w], last first *)
  Definition reversed (n : nat) (w w' : list R) : Prop := forall i j, (i < n)%nat -> (j < n)%nat -> full n w' i j = full n w (n - 1 - i) j.

  Ltac bools := repeat match goal with
    | |- context [Rlt_bool ?x ?y] => first [rewrite (Rlt_bool_true x y) by (unfold f; nra) | rewrite (Rlt_bool_false x y) by (unfold f; nra)] end.
  Lemma symmetric_aff n a : (n = 2 \/ n = 3)%nat -> len a = Z.of_nat n * (Z.of_nat n + 1) / 2 ->
    exists e w, @symmetricEigen R r_num (Z.of_nat n) a = Ok (e, w) /\
    ((0 < k)%R -> @symmetricEigen R r_num (Z.of_nat n) (aff a) = Ok (map f e, w)) /\
    ((k < 0)%R -> exists w', @symmetricEigen R r_num (Z.of_nat n) (aff a) = Ok (rev (map f e), w') /\ (NoDup e -> reversed n w w')).
  Proof.
    intros Hn L.
    destruct (@jacobi_total R r_num (Z.of_nat n) a ltac:(lia) L) as (st & d & E & Sh).
    pose proof (jacobi_aff (Z.of_nat n) a st d ltac:(lia) L E) as E'.
    unfold symmetricEigen; rewrite E, E'; cbn [obind]; clear E E' L.
    destruct Hn as [-> | ->].
    - change (Z.of_nat 2) with 2 in *.
      destruct (shaped2 st Sh) as (a0 & a1 & a2 & v0 & v1 & v2 & v3 & thr & ->); unfold aff_st; cbn [fst snd aff].
      change (mapO (fun i => rd [a0; a1; a2] (i + i * (i + 1) / 2)) (iota 2)) with (Ok [a0; a2]).
      change (mapO (fun i => rd [k * a0 + t; k * a1; k * a2 + t]%R (i + i * (i + 1) / 2)) (iota 2)) with (Ok [f a0; f a2]).
      cbn [obind]; rewrite !sort2_ok; cbn [n_ltb r_num].
      destruct (Rlt_bool_spec a0 a2); cbn [obind fst snd]; do 2 eexists; (split; [reflexivity|split; intros S]); bools; cbn [obind fst snd]; try reflexivity.
      + eexists; split; [reflexivity|]; intros _ [|[|i]] [|[|j]] Hi Hj; try lia; reflexivity.
      + destruct (Rlt_bool_spec (f a0) (f a2)); cbn [obind fst snd map rev app].
        * eexists; split; [reflexivity|]; intros _ [|[|i]] [|[|j]] Hi Hj; try lia; reflexivity.
        * assert (a0 = a2) as -> by (unfold f in *; nra); eexists; split; [reflexivity|]; intros Nd; inversion Nd as [|? ? N _]; exfalso; apply N; left; reflexivity.
    - change (Z.of_nat 3) with 3 in *.
      destruct (shaped3 st Sh) as (a0 & a1 & a2 & a3 & a4 & a5 & v0 & v1 & v2 & v3 & v4 & v5 & v6 & v7 & v8 & thr & ->); unfold aff_st; cbn [fst snd aff].
      change (mapO (fun i => rd [a0; a1; a2; a3; a4; a5] (i + i * (i + 1) / 2)) (iota 3)) with (Ok [a0; a2; a5]).
      change (mapO (fun i => rd [k * a0 + t; k * a1; k * a2 + t; k * a3; k * a4; k * a5 + t]%R (i + i * (i + 1) / 2)) (iota 3)) with (Ok [f a0; f a2; f a5]).
      cbn [obind]; rewrite !sort3_ok; cbn [n_ltb r_num]; clear Sh.
      assert (Pos : (0 < k)%R -> forall x y, Rlt_bool (f x) (f y) = Rlt_bool x y).
      { intros P x y; unfold f; destruct (Rlt_bool_spec x y); [apply Rlt_bool_true|apply Rlt_bool_false]; nra. }
      assert (Neg : (k < 0)%R -> forall x y, Rlt_bool (f x) (f y) = Rlt_bool y x).
      { intros P x y; unfold f; destruct (Rlt_bool_spec y x); [apply Rlt_bool_true|apply Rlt_bool_false]; nra. }
      assert (D : forall x y z : R, x = y \/ x = z \/ y = z -> ~ NoDup [x; y; z]).
      { intros x y z Q Nd; inversion Nd as [|? ? N1 Nd']; inversion Nd' as [|? ? N2 _]; cbn in N1, N2; intuition congruence. }
      destruct (Rlt_bool_spec a0 a2), (Rlt_bool_spec a2 a5), (Rlt_bool_spec a0 a5), (Rlt_bool_spec a2 a0); try lra; cbn [obind fst snd];
        do 2 eexists; (split; [reflexivity|split; intros S]);
        try (rewrite !(Pos S); bools; cbn [obind fst snd]; reflexivity);
        rewrite !(Neg S); clear Pos Neg;
        destruct (Rlt_bool_spec a2 a0), (Rlt_bool_spec a5 a2), (Rlt_bool_spec a5 a0), (Rlt_bool_spec a0 a2); try lra; cbn [obind fst snd map rev app];
        (eexists; split;
          [match goal with |- ?X = Ok (?r, _) => let x := eval lazy -[f] in X in match x with Ok (?l, ?w) => replace r with l by (repeat (apply (f_equal2 cons); [unfold f; nra|]); reflexivity) end end; reflexivity
          |intros Nd; first [(intros [|[|[|i]]] [|[|[|j]]] Hi Hj; try lia; reflexivity) | (exfalso; revert Nd; apply D; lra)]]).
  Qed.
End Affine.

(** ** C143 *)
(** the matrix of an item is k times another one plus t times the identity *)
Definition rescaled (n : nat) (k t : R) (m m' : list R) : Prop := mat_eq n (symm n m') (fun i j => k * symm n m i j + t * mat_id i j)%R.

Lemma loaded_aff n k t m m' : (n = 2 \/ n = 3)%nat -> len m = sym_size n -> len m' = sym_size n -> rescaled n k t m m' ->
  @loaded R n m' = aff k t (@loaded R n m).
Proof.
  intros [-> | ->] L L' H.
  - destruct (len3 m L) as (a0 & a1 & a2 & ->); destruct (len3 m' L') as (b0 & b1 & b2 & ->).
    pose proof (H 0%nat 0%nat ltac:(lia) ltac:(lia)) as H0; pose proof (H 0%nat 1%nat ltac:(lia) ltac:(lia)) as H1; pose proof (H 1%nat 1%nat ltac:(lia) ltac:(lia)) as H2.
    unfold symm, sym2, mat_id in *; cbn [Nat.eqb nth Nat.add Nat.mul] in *; unfold loaded; cbn [Nat.eqb aff]; repeat (apply (f_equal2 cons); [lra|]); reflexivity.
  - destruct (len6 m L) as (a0 & a1 & a2 & a3 & a4 & a5 & ->); destruct (len6 m' L') as (b0 & b1 & b2 & b3 & b4 & b5 & ->).
    pose proof (H 0%nat 0%nat ltac:(lia) ltac:(lia)) as H0; pose proof (H 0%nat 1%nat ltac:(lia) ltac:(lia)) as H1; pose proof (H 0%nat 2%nat ltac:(lia) ltac:(lia)) as H2.
    pose proof (H 1%nat 1%nat ltac:(lia) ltac:(lia)) as H3; pose proof (H 1%nat 2%nat ltac:(lia) ltac:(lia)) as H4; pose proof (H 2%nat 2%nat ltac:(lia) ltac:(lia)) as H5.
    unfold symm, sym3, mat_id in *; cbn [Nat.eqb nth Nat.add Nat.mul] in *; unfold loaded; cbn [Nat.eqb aff]; repeat (apply (f_equal2 cons); [lra|]); reflexivity.
Qed.
Lemma item_aff n k t m m' : (n = 2 \/ n = 3)%nat -> k <> 0%R -> len m = sym_size n -> len m' = sym_size n -> rescaled n k t m m' ->
  ((0 < k)%R -> @values_of R r_num n m' = map (fun x => k * x + t)%R (@values_of R r_num n m) /\ @vectors_of R r_num n m' = @vectors_of R r_num n m) /\
  ((k < 0)%R -> @values_of R r_num n m' = rev (map (fun x => k * x + t)%R (@values_of R r_num n m)) /\
     (NoDup (@values_of R r_num n m) -> reversed n (@vectors_of R r_num n m) (@vectors_of R r_num n m'))).
Proof.
  intros Hn Hk L L' H; destruct (symmetric_aff k t Hk n (@loaded R n m) Hn (loaded_size n m Hn L)) as (e & w & E & P & N).
  unfold values_of, vectors_of, eigen_item; rewrite (loaded_aff n k t m m' Hn L L' H), E; cbn [fst snd]; split; intros S.
  - rewrite (P S); split; reflexivity.
  - destruct (N S) as (w' & E' & R'); rewrite E'; split; [reflexivity|exact R'].
Qed.
Theorem C143_rescaled :
  forall (s s' : Serie R) n rows rows' k t,
  (n = 2 \/ n = 3)%nat -> repr s (sym_size n) rows -> repr s' (sym_size n) rows' -> dimension s = Z.of_nat n -> dimension s' = Z.of_nat n -> rows <> [] ->
  k <> 0%R -> Forall2 (rescaled n k t) rows rows' ->
  exists pairs : list (list R * list R),
    @eigenValues R r_num s = Ok (mk (Z.of_nat n) (map fst pairs) 3) /\ @eigenVectors R r_num s = Ok (mk (Z.of_nat (n * n)) (map snd pairs) 3) /\
    ((0 < k)%R ->
       @eigenValues R r_num s' = Ok (mk (Z.of_nat n) (map (fun ew => map (fun x => k * x + t)%R (fst ew)) pairs) 3) /\
       @eigenVectors R r_num s' = Ok (mk (Z.of_nat (n * n)) (map snd pairs) 3)) /\
    ((k < 0)%R ->
       @eigenValues R r_num s' = Ok (mk (Z.of_nat n) (map (fun ew => rev (map (fun x => k * x + t)%R (fst ew))) pairs) 3) /\
       exists ws, @eigenVectors R r_num s' = Ok (mk (Z.of_nat (n * n)) ws 3) /\
         Forall2 (fun ew w => NoDup (fst ew) -> reversed n (snd ew) w) pairs ws).
Proof.
  intros s s' n rows rows' k t Hn Hs Hs' Hd Hd' Hne Hk H.
  assert (Hne' : rows' <> []) by (intros ->; inversion H; congruence).
  pose proof (repr_rows _ _ _ Hs) as Rr; pose proof (repr_rows _ _ _ Hs') as Rr'.
  exists (map (fun r => (@values_of R r_num n r, @vectors_of R r_num n r)) rows); rewrite !map_map; cbn [fst snd].
  split; [apply eigenValues_ok; assumption|]; split; [apply eigenVectors_ok; assumption|].
  rewrite (eigenValues_ok n s' rows' Hn Hs' Hd' Hne'), (eigenVectors_ok n s' rows' Hn Hs' Hd' Hne').
  clear Hs Hs' Hd Hd' Hne Hne'.
  split; intros S.
  - assert (Q : map (@values_of R r_num n) rows' = map (fun r => map (fun x => k * x + t)%R (@values_of R r_num n r)) rows /\
                map (@vectors_of R r_num n) rows' = map (@vectors_of R r_num n) rows).
    { induction H as [|m m' rows rows' Hm _ IH]; cbn [map]; [split; reflexivity|].
      inversion Rr; inversion Rr'; subst; destruct (item_aff n k t m m' Hn Hk ltac:(assumption) ltac:(assumption) Hm) as [P _]; destruct (P S) as [-> ->].
      destruct IH as [-> ->]; [assumption|assumption|split; reflexivity]. }
    destruct Q as [-> ->]; split; reflexivity.
  - assert (Q : map (@values_of R r_num n) rows' = map (fun r => rev (map (fun x => k * x + t)%R (@values_of R r_num n r))) rows).
    { induction H as [|m m' rows rows' Hm _ IH]; cbn [map]; [reflexivity|].
      inversion Rr; inversion Rr'; subst; destruct (item_aff n k t m m' Hn Hk ltac:(assumption) ltac:(assumption) Hm) as [_ P]; destruct (P S) as [-> _].
      rewrite IH; [reflexivity|assumption|assumption]. }
    rewrite Q; split; [reflexivity|]; eexists; split; [reflexivity|]; clear Q.
    induction H as [|m m' rows rows' Hm _ IH]; cbn [map]; constructor.
    + inversion Rr; inversion Rr'; subst; destruct (item_aff n k t m m' Hn Hk ltac:(assumption) ltac:(assumption) Hm) as [_ P]; destruct (P S) as [_ V]; exact V.
    + inversion Rr; inversion Rr'; subst; apply IH; assumption.
Qed.
Print Assumptions C143_rescaled.

Ltac repr_sym := change (sym_size 2) with 3; change (sym_size 3) with 6; repr_ex.
(** equal eigenvalues: the vectors of -A are not those of A reversed *)
Theorem C143_equal_values_refuted :
  exists (s s' : Serie R) rows rows' w w', repr s (sym_size 2) rows /\ repr s' (sym_size 2) rows' /\ dimension s = 2 /\ dimension s' = 2 /\
    Forall2 (rescaled 2 (-1) 0) rows rows' /\ @eigenVectors R r_num s = Ok (mk 4 [w] 3) /\ @eigenVectors R r_num s' = Ok (mk 4 [w'] 3) /\ ~ reversed 2 w w'.
Proof.
  exists (mk 3 [[1; 0; 1]]%R 2), (mk 3 [[-1; 0; -1]]%R 2), [[1; 0; 1]]%R, [[-1; 0; -1]]%R.
  assert (V : forall x : R, @vectors_of R r_num 2 [x; 0; x]%R = [1; 0; 0; 1]%R).
  { intros x; unfold vectors_of, eigen_item, symmetricEigen, loaded; cbn [Nat.eqb]; change (Z.of_nat 2) with 2; rewrite jacobi2; cbv zeta; cbn [n_add n_mul n_of_Z n_eqb r_num].
    rewrite Req_bool_true by ring; cbn [negb obind].
    change (mapO (fun i => rd [x; 0; x]%R (i + i * (i + 1) / 2)) (iota 2)) with (Ok [x; x]); cbn [obind]; rewrite sort2_ok; cbn [n_ltb r_num].
    rewrite Rlt_bool_false by lra; reflexivity. }
  exists [1; 0; 0; 1]%R, [1; 0; 0; 1]%R.
  split; [repr_sym|]; split; [repr_sym|]; split; [reflexivity|]; split; [reflexivity|]; split.
  { constructor; [|constructor]; intros [|[|i]] [|[|j]] Hi Hj; try lia; unfold symm, sym2, mat_id; cbn; ring. }
  split; [rewrite (eigenVectors_ok 2 _ [[1; 0; 1]]%R (or_introl eq_refl)); [cbn [map]; rewrite V; reflexivity|repr_sym|reflexivity|discriminate]|].
  split; [rewrite (eigenVectors_ok 2 _ [[-1; 0; -1]]%R (or_introl eq_refl)); [cbn [map]; rewrite V; reflexivity|repr_sym|reflexivity|discriminate]|].
  intros H; specialize (H 0%nat 0%nat ltac:(lia) ltac:(lia)); unfold full in H; cbn in H; lra.
Qed.
Print Assumptions C143_equal_values_refuted.

(** stresses in other units and with 10 more on the diagonal; compression counted positive *)
Example C143_ex :
  let s := mk 6 [[2; 1; 0; 2; 1; 2]]%R 3 in let s' := mk 6 [[30; 10; 0; 30; 10; 30]]%R 3 in let s'' := mk 6 [[-2; -1; 0; -2; -1; -2]]%R 3 in
  repr s (sym_size 3) [[2; 1; 0; 2; 1; 2]]%R /\ repr s' (sym_size 3) [[30; 10; 0; 30; 10; 30]]%R /\ dimension s = 3 /\ dimension s' = 3 /\ dimension s'' = 3 /\
  Forall2 (rescaled 3 10 10) [[2; 1; 0; 2; 1; 2]]%R [[30; 10; 0; 30; 10; 30]]%R /\ Forall2 (rescaled 3 (-1) 0) [[2; 1; 0; 2; 1; 2]]%R [[-2; -1; 0; -2; -1; -2]]%R /\
  ~ Forall2 (rescaled 3 1 0) [[2; 1; 0; 2; 1; 2]]%R [[30; 10; 0; 30; 10; 30]]%R.
Proof.
  cbv zeta; split; [repr_sym|]; split; [repr_sym|]; split; [reflexivity|]; split; [reflexivity|]; split; [reflexivity|]; split; [|split].
  - constructor; [|constructor]; intros [|[|[|i]]] [|[|[|j]]] Hi Hj; try lia; unfold symm, sym3, mat_id; cbn; ring.
  - constructor; [|constructor]; intros [|[|[|i]]] [|[|[|j]]] Hi Hj; try lia; unfold symm, sym3, mat_id; cbn; ring.
  - intros H; inversion H as [|? ? ? ? H0 _]; specialize (H0 0%nat 1%nat ltac:(lia) ltac:(lia)); unfold symm, sym3, mat_id in H0; cbn in H0; lra.
Qed.
