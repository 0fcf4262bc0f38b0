(** * C114: matrices made from arrays whose length is not that of a matrix. *)
From Verif Require Import Base Num Serie Spec BaseFacts SerieFacts Views ViewFacts.
From Coq Require Import Reals Lra Psatz.
From Flocq Require Import Core.
From Verif Require Import F64 F64Facts RNum LinSpec Props_Functional Props_Views.
Open Scope Z_scope.
#[local] Existing Instance r_num.

(** a loop that cannot throw and has one step that is undefined in every state is undefined *)
Lemma foldO_undefined {A B} (f : A -> B -> outcome A) (l : list B) : forall a,
  (forall a x e, In x l -> f a x <> Throw e) -> (exists x, In x l /\ forall a, f a x = UB) -> foldO f l a = UB.
Proof.
  induction l as [|x l IH]; intros a Ht (y & Hy & Hu); [destruct Hy|]; cbn [foldO].
  destruct Hy as [->|Hy]; [rewrite Hu; reflexivity|].
  destruct (f a x) as [a'|e|] eqn:E; [|exfalso; exact (Ht a x e (or_introl eq_refl) E)|reflexivity].
  cbn [obind]; apply IH; [intros a0 z e Hz; apply Ht; right; exact Hz|exists y; split; assumption].
Qed.
(** the same with an invariant of the state *)
Lemma foldO_undefined_inv {A B} (I : A -> Prop) (f : A -> B -> outcome A) (l : list B) : forall a, I a ->
  (forall a x, I a -> In x l -> f a x = UB \/ exists a', f a x = Ok a' /\ I a') ->
  (exists x, In x l /\ forall a, I a -> f a x = UB) -> foldO f l a = UB.
Proof.
  induction l as [|x l IH]; intros a Ia Ht (y & Hy & Hu); [destruct Hy|]; cbn [foldO].
  destruct Hy as [->|Hy]; [rewrite Hu by exact Ia; reflexivity|].
  destruct (Ht a x Ia (or_introl eq_refl)) as [->|(a' & -> & Ia')]; [reflexivity|].
  cbn [obind]; apply IH; [exact Ia'|intros a0 z I0 Hz; apply Ht; [exact I0|right; exact Hz]|exists y; split; assumption].
Qed.
Lemma foldO_total {A B} (I : A -> Prop) (f : A -> B -> outcome A) (l : list B) : forall a, I a ->
  (forall a x, I a -> In x l -> exists a', f a x = Ok a' /\ I a') -> exists a', foldO f l a = Ok a' /\ I a'.
Proof.
  induction l as [|x l IH]; intros a Ia Ht; [exists a; split; [reflexivity|exact Ia]|]; cbn [foldO].
  destruct (Ht a x Ia (or_introl eq_refl)) as (a' & -> & Ia'); cbn [obind].
  apply IH; [exact Ia'|intros a0 z I0 Hz; apply Ht; [exact I0|right; exact Hz]].
Qed.

Section NotTriangular.
  Context (v : list R) (n : nat) (d : Z).
  Context (Hn : (1 <= n)%nat) (Hd : 0 < d <= Z.of_nat n) (Hl : len v = triangle n + d).
  Context (Hb : (Z.of_nat n + 1) * (Z.of_nat n + 1) <= two32).

  Let md : R := ((sqrt (IZR (8 * len v + 1)) - 1) / 2)%R.
  Local Notation N := (Z.of_nat n).

  Lemma root_len : (IZR N < md < IZR N + 1)%R /\ (md * md + md = IZR (2 * len v))%R.
  Proof.
    pose proof (tri_even n) as Te.
    assert (P : (0 <= IZR (8 * len v + 1))%R) by (apply IZR_le; nia).
    split.
    - unfold md; split.
      + assert (H : (IZR (2 * N + 1) < sqrt (IZR (8 * len v + 1)))%R); [|rewrite (plus_IZR (2 * N)), (mult_IZR 2 N) in H; lra].
        rewrite <- (sqrt_Rsqr (IZR (2 * N + 1))) by (apply IZR_le; lia).
        apply sqrt_lt_1; unfold Rsqr; try rewrite <- mult_IZR; try (apply IZR_le; nia); apply IZR_lt; nia.
      + assert (H : (sqrt (IZR (8 * len v + 1)) < IZR (2 * N + 3))%R); [|rewrite (plus_IZR (2 * N)), (mult_IZR 2 N) in H; lra].
        rewrite <- (sqrt_Rsqr (IZR (2 * N + 3))) by (apply IZR_le; lia).
        apply sqrt_lt_1; unfold Rsqr; try rewrite <- mult_IZR; try (apply IZR_le; nia); apply IZR_lt; nia.
    - unfold md; pose proof (sqrt_sqrt _ P) as S; set (r := sqrt (IZR (8 * len v + 1))) in *; clearbody r.
      rewrite plus_IZR, mult_IZR in S; rewrite mult_IZR; nra.
  Qed.

  Lemma trunc_root : Ztrunc md = N.
  Proof.
    destruct root_len as [[H1 H2] _].
    rewrite Ztrunc_floor by (apply Rle_trans with (IZR N); [apply IZR_le; lia|lra]).
    apply Zfloor_imp; rewrite plus_IZR; lra.
  Qed.

  (** the size of the local array: at least n^2, at most (n+1)^2 - 1; below or above n^2 + n according to [d] *)
  Lemma trunc_square : let q := Ztrunc (md * md) in
    N * N <= q < two32 /\ (2 * d <= N + 1 -> q <= N * N + N) /\ (N + 2 <= 2 * d -> N * N + N < q).
  Proof.
    destruct root_len as [[H1 H2] H3]; pose proof (tri_even n) as Te; intros q.
    assert (N0 : 0 <= N) by (lia); assert (N0R : (0 <= IZR N)%R) by (apply IZR_le; exact N0).
    assert (Q : (0 <= md * md)%R) by nra.
    assert (Eq : (IZR q <= md * md < IZR q + 1)%R).
    { unfold q; rewrite Ztrunc_floor by exact Q; split; [apply Zfloor_lb|apply Zfloor_ub]. }
    assert (E2 : (md * md = IZR (N * N + N + 2 * d) - md)%R).
    { replace (N * N + N + 2 * d) with (2 * len v) by lia; lra. }
    split; [split|split].
    - apply Z.lt_succ_r; apply lt_IZR; rewrite succ_IZR, mult_IZR; nra.
    - apply lt_IZR; apply Rle_lt_trans with (md * md)%R; [lra|].
      apply Rlt_le_trans with (IZR ((N + 1) * (N + 1))); [rewrite mult_IZR, plus_IZR; nra|apply IZR_le; exact Hb].
    - intros Hs; apply Z.lt_succ_r; apply lt_IZR; rewrite succ_IZR.
      apply IZR_le in Hs; rewrite mult_IZR, plus_IZR in Hs; rewrite plus_IZR, mult_IZR in E2 |- *; rewrite plus_IZR, mult_IZR in E2; lra.
    - intros Hs; apply lt_IZR.
      apply IZR_le in Hs; rewrite mult_IZR, plus_IZR in Hs; rewrite plus_IZR, mult_IZR in E2 |- *; rewrite plus_IZR, mult_IZR in E2; lra.
  Qed.

  (** positions read: all within the array, also for i or j equal to n *)
  Lemma indexS_edge i j : (i <= n)%nat -> (j <= n)%nat ->
    exists p, @indexS R r_num (Z.of_nat i) (Z.of_nat j) N = Ok p /\ 0 <= p < len v.
  Proof.
    assert (G : forall i j, (i <= n)%nat -> (j <= n)%nat -> (i <= j)%nat ->
      exists p, @n_to_u32 R r_num (n_add (n_mul (n_mul (n_ratio 1 2) (n_of_Z (Z.of_nat i))) (n_of_Z (u32 (2 * N - 1 - Z.of_nat i))))
                           (n_of_Z (Z.of_nat j))) = Ok p /\ 0 <= p < len v).
    { clear i j; intros i j Hi Hj Hij; pose proof (tri_even n) as Te; pose proof (even_prod n i) as Ei.
      unfold two32 in Hb; unfold u32; rewrite Z.mod_small by (unfold two32; lia).
      exists (Z.of_nat i * (2 * N - 1 - Z.of_nat i) / 2 + Z.of_nat j).
      set (h := Z.of_nat i * (2 * N - 1 - Z.of_nat i) / 2) in *.
      cbn [n_add n_mul n_of_Z r_num]; unfold n_ratio; cbn [n_div n_of_Z r_num].
      replace (1 / 2 * IZR (Z.of_nat i) * IZR (2 * N - 1 - Z.of_nat i) + IZR (Z.of_nat j))%R with (IZR (h + Z.of_nat j)).
      2: { rewrite plus_IZR; apply (f_equal IZR) in Ei; rewrite !mult_IZR in Ei; lra. }
      unfold n_to_u32; cbn [n_to_Z r_num]; rewrite Ztrunc_IZR.
      assert (D : 0 <= (N - Z.of_nat i) * (N - Z.of_nat i - 1)).
      { destruct (Z.eq_dec N (Z.of_nat i)) as [->|]; [lia|apply Z.mul_nonneg_nonneg; lia]. }
      assert (D0 : 0 <= Z.of_nat i * (2 * N - 1 - Z.of_nat i)) by (apply Z.mul_nonneg_nonneg; lia).
      assert (D1 : 2 * h <= N * N - N) by (rewrite <- Ei; lia).
      assert (B : 0 <= h + Z.of_nat j < len v) by lia.
      assert (B' : h + Z.of_nat j < 4294967296) by lia.
      split; [|exact B].
      destruct (Z.leb_spec 0 (h + Z.of_nat j)), (Z.ltb_spec (h + Z.of_nat j) two32); unfold two32 in *; try lia; reflexivity. }
    intros Hi Hj; unfold indexS; destruct (Z.ltb_spec (Z.of_nat j) (Z.of_nat i)); apply G; lia.
  Qed.

  Lemma index_edge i j : (i <= n)%nat -> (j <= n)%nat -> index (Z.of_nat j) (Z.of_nat i) N = Z.of_nat j * N + Z.of_nat i.
  Proof. intros Hi Hj; unfold index, u32; apply Z.mod_small; fold two32; unfold two32 in *; nia. Qed.

  Definition step (w : list R) (p : nat * nat) : outcome (list R) :=
    let* q := @indexS R r_num (Z.of_nat (fst p)) (Z.of_nat (snd p)) N in
    let* x := rd v q in wr w (index (Z.of_nat (snd p)) (Z.of_nat (fst p)) N) x.

  Lemma symSquared_steps :
    @symSquaredMatrix R r_num v
    = let* w := foldO step (square_grid (S n)) (replicate (Ztrunc (md * md)) 0%R) in
      Ok {| m_data := w; m_alive := false; m_m := N |}.
  Proof.
    destruct root_len as [[H1 H2] _]; pose proof (trunc_square) as (Q & _); pose proof (tri_even n) as Te.
    unfold symSquaredMatrix; cbv zeta; unfold u64; rewrite Z.mod_small by (fold two64; unfold two64, two32 in *; nia).
    cbn [n_sub n_div n_mul n_sqrt n_of_Z n_ltb r_num]; fold md.
    unfold n_to_u32 at 1 2; cbn [n_to_Z r_num]; rewrite trunc_root.
    assert (BN : 0 <= N < two32) by (unfold two32 in *; nia).
    destruct (Z.leb_spec 0 N), (Z.ltb_spec N two32); try lia; cbn [andb obind].
    destruct (Z.leb_spec 0 (Ztrunc (md * md))), (Z.ltb_spec (Ztrunc (md * md)) two32); try nia; cbn [andb obind].
    rewrite Rlt_bool_true by lra.
    replace (N + 1) with (Z.of_nat (S n)) by (lia).
    rewrite (foldO_grid (fun w i j => let* p := @indexS R r_num i j N in let* x := rd v p in wr w (index j i N) x)).
    rewrite grid_square, foldO_map; reflexivity.
  Qed.

  Lemma step_ok w i j : (i <= n)%nat -> (j <= n)%nat -> Z.of_nat j * N + Z.of_nat i < len w ->
    exists w', step w (i, j) = Ok w' /\ len w' = len w.
  Proof.
    intros Hi Hj Hw; destruct (indexS_edge i j Hi Hj) as (p & E & Hp); unfold step; cbn [fst snd]; rewrite E; cbn [obind].
    rewrite (rd_nth v p 0%R Hp); cbn [obind]; rewrite index_edge by assumption.
    rewrite wr_ok by (nia); eexists; split; [reflexivity|apply len_upd].
  Qed.
  Lemma step_ub w i j : (i <= n)%nat -> (j <= n)%nat -> len w <= Z.of_nat j * N + Z.of_nat i -> step w (i, j) = UB.
  Proof.
    intros Hi Hj Hw; destruct (indexS_edge i j Hi Hj) as (p & E & Hp); unfold step; cbn [fst snd]; rewrite E; cbn [obind].
    rewrite (rd_nth v p 0%R Hp); cbn [obind]; rewrite index_edge by assumption; apply wr_out; right; exact Hw.
  Qed.

  Lemma few_more : 2 * d <= N + 1 -> @symSquaredMatrix R r_num v = UB.
  Proof.
    intros Hs; destruct trunc_square as (Q & Q1 & _); specialize (Q1 Hs); rewrite symSquared_steps.
    rewrite (foldO_undefined_inv (fun w => len w = Ztrunc (md * md))); [reflexivity| | |].
    - apply len_replicate; nia.
    - intros w [i j] Hw Hin; apply in_square_grid in Hin.
      destruct (Z.lt_ge_cases (Z.of_nat j * N + Z.of_nat i) (len w)) as [Hlt|Hge].
      + right; destruct (step_ok w i j ltac:(lia) ltac:(lia) Hlt) as (w' & E & L); exists w'; split; [exact E|congruence].
      + left; apply step_ub; [lia|lia|exact Hge].
    - exists (n, n); split; [apply in_square_grid; lia|].
      intros w Hw; apply step_ub; [lia|lia|]; rewrite Hw; lia.
  Qed.
  Lemma many_more : N + 2 <= 2 * d ->
    exists w, @symSquaredMatrix R r_num v = Ok {| m_data := w; m_alive := false; m_m := N |} /\ N * N + N < len w.
  Proof.
    intros Hs; destruct trunc_square as (Q & _ & Q2); specialize (Q2 Hs); rewrite symSquared_steps.
    destruct (foldO_total (fun w => len w = Ztrunc (md * md)) step (square_grid (S n)) (replicate (Ztrunc (md * md)) 0%R)) as (w & E & L).
    - apply len_replicate; nia.
    - intros w [i j] Hw Hin; apply in_square_grid in Hin.
      destruct (step_ok w i j ltac:(lia) ltac:(lia)) as (w' & E & L); [rewrite Hw; nia|].
      exists w'; split; [exact E|congruence].
    - rewrite E; cbn [obind]; exists w; split; [reflexivity|lia].
  Qed.
End NotTriangular.

(** The full statement (an array whose length is not that of a matrix is rejected with an exception) is false. *)
Theorem C114_symmetric_refuted :
  forall (v : list R) n d, 0 < d <= Z.of_nat n -> len v = triangle n + d -> (Z.of_nat n + 1) * (Z.of_nat n + 1) <= two32 ->
  if 2 * d <=? Z.of_nat n + 1
  then @symSquaredMatrix R r_num v = UB
  else exists M, @symSquaredMatrix R r_num v = Ok M /\ m_m M = Z.of_nat n /\ Z.of_nat n * Z.of_nat n < len (m_data M).
Proof.
  intros v n d Hd Hl Hb; assert (Hn : (1 <= n)%nat) by lia.
  destruct (Z.leb_spec (2 * d) (Z.of_nat n + 1)).
  - apply (few_more v n d Hn Hd Hl Hb); assumption.
  - destruct (many_more v n d Hn Hd Hl Hb ltac:(lia)) as (w & E & L).
    eexists; split; [exact E|]; cbn [m_m m_data]; split; [reflexivity|lia].
Qed.
Print Assumptions C114_symmetric_refuted.

(** every length is triangular or lies between two triangular numbers, so the theorem above and C91 cover all lengths *)
Theorem C114_lengths_covered :
  forall L, 0 <= L -> exists n d, L = triangle n + d /\ 0 <= d <= Z.of_nat n.
Proof.
  intros L HL; rewrite <- (Z2Nat.id L HL); clear HL; induction (Z.to_nat L) as [|k (n & d & E & B)].
  - exists 0%nat, 0; split; [reflexivity|lia].
  - destruct (Z.eq_dec d (Z.of_nat n)).
    + exists (S n), 0; split; [|lia]; pose proof (tri_even n); pose proof (tri_even (S n)); nia.
    + exists n, (d + 1); split; lia.
Qed.
Print Assumptions C114_lengths_covered.

(** squaredMatrix never rejects: the side is the rounded-down root and the numbers beyond are ignored *)
Theorem C114_squared_refuted :
  forall (v : list R) n, Z.of_nat n * Z.of_nat n <= len v < (Z.of_nat n + 1) * (Z.of_nat n + 1) -> Z.of_nat n < two32 ->
  @squaredMatrix R r_num v = Ok {| m_data := v; m_alive := true; m_m := Z.of_nat n |}.
Proof.
  intros v n Hl Hn; unfold squaredMatrix, n_to_u32; cbn [n_sqrt n_of_Z n_to_Z r_num].
  assert (E : Ztrunc (sqrt (IZR (len v))) = Z.of_nat n).
  { rewrite Ztrunc_floor by apply sqrt_pos; apply Zfloor_imp; split.
    - rewrite <- (sqrt_Rsqr (IZR (Z.of_nat n))) by (apply IZR_le; lia).
      apply sqrt_le_1; unfold Rsqr; try rewrite <- mult_IZR; apply IZR_le; nia.
    - rewrite <- (sqrt_Rsqr (IZR (Z.of_nat n + 1))) by (apply IZR_le; lia).
      apply sqrt_lt_1; unfold Rsqr; try rewrite <- mult_IZR; try (apply IZR_le; nia); apply IZR_lt; nia. }
  rewrite E; destruct (Z.leb_spec 0 (Z.of_nat n)), (Z.ltb_spec (Z.of_nat n) two32); try lia; reflexivity.
Qed.
Print Assumptions C114_squared_refuted.

(** square lengths are viewed as they are *)
Theorem C114_squared_partial :
  forall (v : list R) n, len v = Z.of_nat n * Z.of_nat n -> Z.of_nat n * Z.of_nat n < two32 ->
  exists M, @squaredMatrix R r_num v = Ok M /\ views M n /\ m_data M = v.
Proof.
  intros v n Hl Hn; eexists; split; [apply (C114_squared_refuted v n); unfold two32 in *; nia|].
  unfold views; cbn [m_data m_alive m_m]; repeat split; [unfold len in Hl; nia|lia].
Qed.
Print Assumptions C114_squared_partial.

(** four numbers: undefined; nine numbers: a 3 x 3 matrix from six of them; five numbers: a 2 x 2 matrix *)
Example C114_witness :
  @symSquaredMatrix R r_num [1; 2; 3; 4]%R = UB /\
  (exists M, @symSquaredMatrix R r_num [1; 2; 3; 4; 5; 6; 7; 8; 9]%R = Ok M /\ m_m M = 3) /\
  (exists M, @squaredMatrix R r_num [1; 2; 3; 4; 5]%R = Ok M /\ m_m M = 2).
Proof.
  split; [|split].
  - apply (C114_symmetric_refuted [1; 2; 3; 4]%R 2 1); [lia|reflexivity|unfold two32; lia].
  - destruct (C114_symmetric_refuted [1; 2; 3; 4; 5; 6; 7; 8; 9]%R 3 3 ltac:(lia) eq_refl ltac:(unfold two32; lia)) as (M & E & Em & _).
    exists M; split; [exact E|exact Em].
  - eexists; split; [apply (C114_squared_refuted _ 2); [unfold len; cbn; lia|unfold two32; lia]|reflexivity].
Qed.
