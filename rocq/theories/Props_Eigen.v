(** * C81, C82, C83: eigenvalues and eigenvectors of symmetric matrices. *)
From Verif Require Import Base Num Serie Spec BaseFacts SerieFacts Functional FunctionalFacts Mathf MathFacts MinMaxFacts OrderFacts Props_MinMax Views Algebra AlgebraFacts.
From Verif Require Import RNum LinSpec Props_Functional Props_Algebra Eigen EigenFacts JacobiSpec JacobiFacts.
From Coq Require Import Reals Lra Permutation Sorted.
Open Scope Z_scope.

(** the symmetric matrix of an item: xx, xy, yy or xx, xy, xz, yy, yz, zz *)
Definition symm (n : nat) (v : list R) : Mat := if Nat.eqb n 2 then sym2 v else sym3 v.
(** number of stored components *)
Definition sym_size (n : nat) : Z := Z.of_nat n * (Z.of_nat n + 1) / 2.

Section Entry.
  Context {T : Type} {NT : Num T}.
  (** the matrix handed to [symmetricEigen] *)
  Definition loaded (n : nat) (mat : list T) : list T :=
    if Nat.eqb n 2 then mat else match mat with [m0; m1; m2; m3; m4; m5] => [m0; m1; m3; m2; m4; m5] | _ => mat end.
  Definition eigen_item (n : nat) (mat : list T) : outcome (list T * list T) := symmetricEigen (Z.of_nat n) (loaded n mat).
  Definition values_of (n : nat) (mat : list T) : list T := match eigen_item n mat with Ok e => fst e | _ => [] end.
  Definition vectors_of (n : nat) (mat : list T) : list T := match eigen_item n mat with Ok e => snd e | _ => [] end.

  Lemma loaded_size n mat : (n = 2 \/ n = 3)%nat -> len mat = sym_size n -> len (loaded n mat) = sym_size n.
  Proof. intros [-> | ->] L; [exact L|destruct (len6 mat L) as (? & ? & ? & ? & ? & ? & ->); reflexivity]. Qed.
  Lemma item_ok n mat : (n = 2 \/ n = 3)%nat -> len mat = sym_size n ->
    eigen_item n mat = Ok (values_of n mat, vectors_of n mat) /\ len (values_of n mat) = Z.of_nat n /\ len (vectors_of n mat) = Z.of_nat (n * n).
  Proof.
    intros Hn L; pose proof (loaded_size n mat Hn L) as L'.
    destruct (symmetric_ok n (loaded n mat) Hn L') as (a & v & thr & d & diag & ev & p & _ & _ & _ & _ & _ & Le & E & Lw).
    unfold values_of, vectors_of, eigen_item; rewrite E; cbn [fst snd]; unfold len; rewrite Le, Lw; auto.
  Qed.
  Lemma eigen2_item mat : len mat = 3 -> eigen2 mat = eigen_item 2 mat.
  Proof. intros L; destruct (len3 mat L) as (? & ? & ? & ->); reflexivity. Qed.
  Lemma eigen3_item mat : len mat = 6 -> eigen3 mat = eigen_item 3 mat.
  Proof. intros L; destruct (len6 mat L) as (? & ? & ? & ? & ? & ? & ->); reflexivity. Qed.

  Lemma not_refused n (s : Serie T) rows : (n = 2 \/ n = 3)%nat -> repr s (sym_size n) rows -> dimension s = Z.of_nat n -> eigen_refused s = false.
  Proof. intros Hn Hs Hd; unfold eigen_refused; rewrite Hd, (repr_itemSize _ _ _ Hs); destruct Hn as [-> | ->]; reflexivity. Qed.

  Lemma eigenValues_ok n (s : Serie T) rows : (n = 2 \/ n = 3)%nat -> repr s (sym_size n) rows -> dimension s = Z.of_nat n -> rows <> [] ->
    eigenValues s = Ok (mk (Z.of_nat n) (map (values_of n) rows) 3).
  Proof.
    intros Hn Hs Hd Hne; unfold eigenValues; rewrite (not_refused n s rows Hn Hs Hd), Hd, (repr_itemSize _ _ _ Hs).
    pose proof (repr_rows _ _ _ Hs) as Rr; unfold rows_of_size in Rr; rewrite Forall_forall in Rr.
    destruct Hn as [-> | ->]; cbn [sym_size Z.eqb Pos.eqb andb].
    - apply (map_rows_ok s _ rows (fun mat => let* r := eigen2 mat in Ok (fst r)) (values_of 2) 2 Hs Hne ltac:(lia)).
      intros r Hr; destruct (item_ok 2 r (or_introl eq_refl) (Rr r Hr)) as (E & L & _); rewrite (eigen2_item r (Rr r Hr)), E; split; [reflexivity|exact L].
    - apply (map_rows_ok s _ rows (fun mat => let* r := eigen3 mat in Ok (fst r)) (values_of 3) 3 Hs Hne ltac:(lia)).
      intros r Hr; destruct (item_ok 3 r (or_intror eq_refl) (Rr r Hr)) as (E & L & _); rewrite (eigen3_item r (Rr r Hr)), E; split; [reflexivity|exact L].
  Qed.
  Lemma eigenVectors_ok n (s : Serie T) rows : (n = 2 \/ n = 3)%nat -> repr s (sym_size n) rows -> dimension s = Z.of_nat n -> rows <> [] ->
    eigenVectors s = Ok (mk (Z.of_nat (n * n)) (map (vectors_of n) rows) 3).
  Proof.
    intros Hn Hs Hd Hne; unfold eigenVectors; rewrite (not_refused n s rows Hn Hs Hd), Hd, (repr_itemSize _ _ _ Hs).
    pose proof (repr_rows _ _ _ Hs) as Rr; unfold rows_of_size in Rr; rewrite Forall_forall in Rr.
    destruct Hn as [-> | ->]; cbn [sym_size Z.eqb Pos.eqb andb].
    - apply (map_rows_ok s _ rows (fun mat => let* r := eigen2 mat in Ok (snd r)) (vectors_of 2) 4 Hs Hne ltac:(lia)).
      intros r Hr; destruct (item_ok 2 r (or_introl eq_refl) (Rr r Hr)) as (E & _ & L); rewrite (eigen2_item r (Rr r Hr)), E; split; [reflexivity|exact L].
    - apply (map_rows_ok s _ rows (fun mat => let* r := eigen3 mat in Ok (snd r)) (vectors_of 3) 9 Hs Hne ltac:(lia)).
      intros r Hr; destruct (item_ok 3 r (or_intror eq_refl) (Rr r Hr)) as (E & _ & L); rewrite (eigen3_item r (Rr r Hr)), E; split; [reflexivity|exact L].
  Qed.

  (** filling two Series together *)
  Lemma fill_two (g : Z -> outcome (list T)) (h : list T -> outcome (list T * list T)) k1 k2 d1 d2 : 0 <= k1 < 2147483648 -> 0 <= k2 < 2147483648 ->
    forall todo (done1 done2 old1 old2 : list (list T)),
    (forall j r, nth_error todo j = Some r -> exists m, g (Z.of_nat (length done1 + j)) = Ok m /\ h m = Ok r) ->
    length done2 = length done1 -> length old1 = length todo -> length old2 = length todo ->
    rows_of_size k1 (done1 ++ old1) -> rows_of_size k2 (done2 ++ old2) -> rows_of_size k1 (map fst todo) -> rows_of_size k2 (map snd todo) ->
    len (done1 ++ old1) < 4294967296 -> k1 * len (done1 ++ old1) < 4294967296 -> k2 * len (done1 ++ old1) < 4294967296 ->
    foldO (fun (vv : Serie T * Serie T) i =>
      let* mat := g i in let* e := h mat in
      let* values := set_array (fst vv) i (fst e) in let* vectors := set_array (snd vv) i (snd e) in Ok (values, vectors))
      (seqZ (length done1) (length todo)) (mk k1 (done1 ++ old1) d1, mk k2 (done2 ++ old2) d2)
    = Ok (mk k1 (done1 ++ map fst todo) d1, mk k2 (done2 ++ map snd todo) d2).
  Proof.
    intros Hk1 Hk2; induction todo as [|x todo IH]; intros done1 done2 old1 old2 Hg Hl L1 L2 R1 R2 T1 T2 Hn Hm1 Hm2.
    - destruct old1; [|discriminate]; destruct old2; [|discriminate]; reflexivity.
    - destruct old1 as [|o1 old1]; [discriminate|]; destruct old2 as [|o2 old2]; [discriminate|].
      cbn [length map]; rewrite seqZ_S; cbn [foldO].
      destruct (Hg O x eq_refl) as (m & E1 & E2); rewrite Nat.add_0_r in E1; rewrite E1; cbn [obind]; rewrite E2; cbn [obind fst snd].
      inversion T1 as [|? ? X1 T1']; subst; inversion T2 as [|? ? X2 T2']; subst.
      assert (Hlen : len (done2 ++ o2 :: old2) = len (done1 ++ o1 :: old1)) by (rewrite !len_app, !len_cons; unfold len; cbn [length] in *; lia).
      rewrite set_array_mk; [|apply repr_mk; auto|rewrite len_app, len_cons; unfold len; lia|reflexivity]; cbn [obind].
      rewrite set_array_mk; [|apply repr_mk; auto; rewrite Hlen; auto|rewrite len_app, len_cons; unfold len; lia|reflexivity]; cbn [obind].
      rewrite Nat2Z.id, upd_nat_mid; rewrite <- Hl, upd_nat_mid, Hl.
      specialize (IH (done1 ++ [fst x]) (done2 ++ [snd x]) old1 old2).
      rewrite !app_length in IH; cbn [length] in IH; rewrite !Nat.add_1_r in IH.
      rewrite <- !app_assoc in IH; cbn [app] in IH; apply IH; auto.
      + intros j r Hj; replace (S (length done1) + j)%nat with (length done1 + S j)%nat by lia; apply Hg; exact Hj.
      + apply rows_app in R1; destruct R1 as [R1 R1']; apply rows_app; split; [exact R1|]; inversion R1'; subst; constructor; auto.
      + apply rows_app in R2; destruct R2 as [R2 R2']; apply rows_app; split; [exact R2|]; inversion R2'; subst; constructor; auto.
      + rewrite !len_app, !len_cons in *; lia.
      + rewrite !len_app, !len_cons in *; lia.
      + rewrite !len_app, !len_cons in *; lia.
  Qed.

  Lemma eigen_fill_ok n eig (s : Serie T) rows : (n = 2 \/ n = 3)%nat -> repr s (sym_size n) rows -> Z.of_nat (n * n) * len rows < 4294967296 ->
    (forall r, In r rows -> eig r = eigen_item n r) ->
    eigen_fill eig s (serie_n (Z.of_nat n) (count s) 3) (serie_n (Z.of_nat (n * n)) (count s) 3) =
    Ok (mk (Z.of_nat n) (map (values_of n) rows) 3, mk (Z.of_nat (n * n)) (map (vectors_of n) rows) 3).
  Proof.
    intros Hn Hs Hm He; unfold eigen_fill; rewrite (repr_count _ _ _ Hs).
    pose proof (repr_rows _ _ _ Hs) as Rr; unfold rows_of_size in Rr; rewrite Forall_forall in Rr.
    assert (Hc : len rows < 4294967296) by apply Hs; pose proof (len_nonneg rows) as Hp.
    assert (Hm1 : Z.of_nat n * len rows < 4294967296) by (destruct Hn as [-> | ->]; lia).
    rewrite !serie_n_mk by (try assumption; lia).
    set (todo := map (fun r => (values_of n r, vectors_of n r)) rows).
    assert (Lt : length todo = length rows) by apply map_length.
    assert (Z1 : forall k, length (@zrows T NT k (len rows)) = length rows) by (intros k; unfold zrows; rewrite repeat_length; unfold len; lia).
    assert (Lz : forall k, len (@zrows T NT k (len rows)) = len rows) by (intros; apply len_zrows; lia).
    rewrite iota_len, <- Lt.
    pose proof (fill_two (get_array s) eig (Z.of_nat n) (Z.of_nat (n * n)) 3 3 ltac:(lia) ltac:(destruct Hn as [-> | ->]; lia) todo [] [] (zrows (Z.of_nat n) (len rows)) (zrows (Z.of_nat (n * n)) (len rows))) as F.
    cbn [app length] in F; rewrite F; clear F.
    - unfold todo; rewrite !map_map; cbn [obind fst snd]; reflexivity.
    - intros j r Hj; unfold todo in Hj; rewrite nth_error_map in Hj; destruct (nth_error rows j) as [m|] eqn:Em; [|discriminate]; injection Hj as <-.
      exists m; split; [apply (get_array_nth s _ rows j m Hs Em)|]; rewrite He by (apply nth_error_In in Em; exact Em).
      apply item_ok; [exact Hn|]; apply Rr, (nth_error_In _ _ Em).
    - reflexivity.
    - rewrite Z1, Lt; reflexivity.
    - rewrite Z1, Lt; reflexivity.
    - apply rows_zrows; lia.
    - apply rows_zrows; lia.
    - unfold todo; rewrite map_map; apply Forall_forall; intros y Hy; apply in_map_iff in Hy; destruct Hy as (r & <- & Hr); apply item_ok; [exact Hn|apply Rr, Hr].
    - unfold todo; rewrite map_map; apply Forall_forall; intros y Hy; apply in_map_iff in Hy; destruct Hy as (r & <- & Hr); apply item_ok; [exact Hn|apply Rr, Hr].
    - rewrite Lz; exact Hc.
    - rewrite Lz; exact Hm1.
    - rewrite Lz; exact Hm.
  Qed.
  Lemma eigenSystem_ok n (s : Serie T) rows : (n = 2 \/ n = 3)%nat -> repr s (sym_size n) rows -> dimension s = Z.of_nat n -> Z.of_nat (n * n) * len rows < 4294967296 ->
    eigenSystem s = Ok (mk (Z.of_nat n) (map (values_of n) rows) 3, mk (Z.of_nat (n * n)) (map (vectors_of n) rows) 3).
  Proof.
    intros Hn Hs Hd Hm; unfold eigenSystem; rewrite (not_refused n s rows Hn Hs Hd), Hd, (repr_itemSize _ _ _ Hs).
    pose proof (repr_rows _ _ _ Hs) as Rr; unfold rows_of_size in Rr; rewrite Forall_forall in Rr.
    destruct Hn as [-> | ->].
    - change ((Z.of_nat 2 =? 2) && (sym_size 2 =? 3))%bool with true; cbv iota.
      apply (eigen_fill_ok 2 eigen2 s rows (or_introl eq_refl) Hs Hm); intros r Hr; apply eigen2_item, (Rr r Hr).
    - change ((Z.of_nat 3 =? 2) && (sym_size 3 =? 3))%bool with false; change ((Z.of_nat 3 =? 3) && (sym_size 3 =? 6))%bool with true; cbv iota.
      apply (eigen_fill_ok 3 eigen3 s rows (or_intror eq_refl) Hs Hm); intros r Hr; apply eigen3_item, (Rr r Hr).
  Qed.
End Entry.

(** ** The item, over the reals *)
Lemma loaded_symm n mat : (n = 2 \/ n = 3)%nat -> len mat = sym_size n -> mat_eq n (colpk (loaded n mat)) (symm n mat).
Proof.
  intros [-> | ->] L.
  - destruct (len3 mat L) as (? & ? & ? & ->); mat_cases2; reflexivity.
  - destruct (len6 mat L) as (? & ? & ? & ? & ? & ? & ->); mat_cases3; reflexivity.
Qed.
Lemma off_ext n A B : mat_eq n A B -> off n A = off n B.
Proof. intros H; unfold off; apply upto_ext; intros j Hj; apply upto_ext; intros i Hi; rewrite H by lia; reflexivity. Qed.
Lemma trace_ext n A B : mat_eq n A B -> trace n A = trace n B.
Proof. intros H; unfold trace; apply upto_ext; intros j Hj; apply H; assumption. Qed.
Lemma residual_ext n A B lam lam' V V' : mat_eq n A B -> (forall k, (k < n)%nat -> lam k = lam' k) -> mat_eq n V V' -> residual n A lam V = residual n B lam' V'.
Proof.
  intros H Hl HV; unfold residual; apply upto_ext; intros k Hk; apply upto_ext; intros i Hi.
  rewrite (upto_ext n (fun j => (A i j * V k j)%R) (fun j => (B i j * V' k j)%R)) by (intros j Hj; rewrite H, HV by assumption; reflexivity).
  rewrite Hl, HV by assumption; reflexivity.
Qed.
Lemma total_perm l l' : Permutation l l' -> LinSpec.total l = LinSpec.total l'.
Proof. unfold LinSpec.total; induction 1; cbn [fold_right]; lra. Qed.
(** a sum does not depend on the order *)
Lemma upto_perm n p f : Permutation p (seq 0 n) -> upto n (fun k => f (nth k p 0%nat)) = upto n f.
Proof.
  intros P; unfold upto; apply total_perm; rewrite <- (map_map (fun k => nth k p 0%nat) f).
  apply Permutation_map; replace (map (fun k => nth k p 0%nat) (seq 0 n)) with p; [exact P|].
  assert (L : length p = n) by (rewrite (Permutation_length P), seq_length; reflexivity); clear P; subst n.
  apply (nth_ext _ _ 0%nat 0%nat); [rewrite map_length, seq_length; reflexivity|]; intros k Hk.
  rewrite (nth_indep (map _ _) 0%nat (nth 0%nat p 0%nat)) by (rewrite map_length, seq_length; exact Hk).
  rewrite (map_nth (fun k => nth k p 0%nat)), seq_nth by exact Hk; reflexivity.
Qed.
Lemma perm_lt n p k : Permutation p (seq 0 n) -> (k < n)%nat -> (nth k p 0 < n)%nat.
Proof.
  intros P Hk; assert (L : length p = n) by (rewrite (Permutation_length P), seq_length; reflexivity).
  assert (I : In (nth k p 0%nat) (seq 0 n)) by (apply (Permutation_in _ P), nth_In; lia); apply in_seq in I; lia.
Qed.
Lemma perm_inj n p i j : Permutation p (seq 0 n) -> (i < n)%nat -> (j < n)%nat -> nth i p 0%nat = nth j p 0%nat -> i = j.
Proof.
  intros P Hi Hj E; assert (L : length p = n) by (rewrite (Permutation_length P), seq_length; reflexivity).
  apply (proj1 (NoDup_nth p 0%nat)); [apply (Permutation_NoDup (Permutation_sym P)), seq_NoDup|lia|lia|exact E].
Qed.
Lemma rows_at_full n (v : list R) p : (n = 2 \/ n = 3)%nat -> len v = Z.of_nat n * Z.of_nat n -> Permutation p (seq 0 n) ->
  forall k i, (k < n)%nat -> (i < n)%nat -> full n (concat (rows_at n v p)) k i = full n v (nth k p 0%nat) i.
Proof.
  intros Hn Lv P k i Hk Hi.
  assert (Lp : length p = n) by (rewrite (Permutation_length P), seq_length; reflexivity).
  assert (B : forall q, (q < n)%nat -> (nth q p 0 < n)%nat) by (intros q Hq; apply perm_lt; assumption).
  destruct Hn as [-> | ->].
  - destruct (len4 v Lv) as (v0 & v1 & v2 & v3 & ->); destruct p as [|p0 [|p1 [|? ?]]]; try discriminate Lp.
    pose proof (B 0%nat ltac:(lia)) as B0; pose proof (B 1%nat ltac:(lia)) as B1; cbn [nth] in B0, B1; clear B P.
    destruct p0 as [|[|?]]; try lia; destruct p1 as [|[|?]]; try lia; destruct k as [|[|?]]; try lia; destruct i as [|[|?]]; try lia; reflexivity.
  - destruct (len9 v Lv) as (v0 & v1 & v2 & v3 & v4 & v5 & v6 & v7 & v8 & ->); destruct p as [|p0 [|p1 [|p2 [|? ?]]]]; try discriminate Lp.
    pose proof (B 0%nat ltac:(lia)) as B0; pose proof (B 1%nat ltac:(lia)) as B1; pose proof (B 2%nat ltac:(lia)) as B2; cbn [nth] in B0, B1, B2; clear B P.
    destruct p0 as [|[|[|?]]]; try lia; destruct p1 as [|[|[|?]]]; try lia; destruct p2 as [|[|[|?]]]; try lia; destruct k as [|[|[|?]]]; try lia; destruct i as [|[|[|?]]]; try lia; reflexivity.
Qed.
Lemma diagonal_R n (a : list R) diag : (n = 2 \/ n = 3)%nat -> len a = sym_size n -> diagonal (Z.of_nat n) a = Ok diag -> forall k, (k < n)%nat -> nth k diag 0%R = colpk a k k.
Proof.
  intros [-> | ->] L E k Hk.
  - destruct (len3 a L) as (? & ? & ? & ->); change (Ok [x; x1] = Ok diag) in E; injection E as <-; destruct k as [|[|?]]; try lia; reflexivity.
  - destruct (len6 a L) as (? & ? & ? & ? & ? & ? & ->); change (Ok [x; x1; x4] = Ok diag) in E; injection E as <-; destruct k as [|[|[|?]]]; try lia; reflexivity.
Qed.
Lemma residual_off n B : (n = 2 \/ n = 3)%nat -> (forall i j, (i < n)%nat -> (j < n)%nat -> B i j = B j i) ->
  upto n (fun k => upto n (fun j => ((B j k - B k k * mat_id j k) * (B j k - B k k * mat_id j k))%R)) = (2 * off n B)%R.
Proof.
  intros [-> | ->] S.
  - rewrite off2; unfold upto, LinSpec.total, mat_id; cbn; rewrite (S 1%nat 0%nat) by lia; ring.
  - rewrite off3; unfold upto, LinSpec.total, mat_id; cbn; rewrite (S 1%nat 0%nat), (S 2%nat 0%nat), (S 2%nat 1%nat) by lia; ring.
Qed.

Lemma item_R n (mat : list R) : (n = 2 \/ n = 3)%nat -> len mat = sym_size n ->
  exists e w, @eigen_item R r_num n mat = Ok (e, w) /\ len e = Z.of_nat n /\ len w = Z.of_nat (n * n) /\
    mat_eq n (mat_mul n (full n w) (mat_t (full n w))) mat_id /\
    (residual n (symm n mat) (fun k => nth k e 0) (full n w) <= 2 * / 100000 * off n (symm n mat))%R /\
    LinSpec.total e = trace n (symm n mat).
Proof.
  intros Hn L; pose proof (loaded_size n mat Hn L) as L'; pose proof (loaded_symm n mat Hn L) as Es.
  destruct (@symmetric_ok R r_num n (loaded n mat) Hn L') as (a & v & thr & d & diag & ev & p & Ej & Sh & Ed & Ld & So & Le & E & Lw).
  destruct (jacobi_R n (loaded n mat) Hn L') as (st & k & Ej' & [(_ & Hb & Hr & Hc) Ho] & Hsmall & _).
  rewrite Ej in Ej'; injection Ej' as <- _; cbn [fst snd] in *.
  destruct So as (P & _ & Sv); destruct Sh as [La Lv]; cbn [fst snd] in La, Lv.
  assert (EV := rows_at_full n v p Hn Lv P); assert (ED := diagonal_R n a diag Hn La Ed).
  assert (Ee : forall q, (q < n)%nat -> nth q ev 0%R = colpk a (nth q p 0%nat) (nth q p 0%nat)).
  { intros q Hq; rewrite <- ED by (apply perm_lt; assumption).
    assert (N : nth_error (map Some ev) q = nth_error (map (nth_error diag) p) q) by (rewrite Sv; reflexivity).
    assert (Lp : length p = n) by (rewrite (Permutation_length P), seq_length; reflexivity).
    rewrite !nth_error_map, (nth_error_nth' ev 0%R) in N by lia.
    rewrite (nth_error_nth' p 0%nat) in N by lia; cbn [option_map] in N; injection N as N.
    symmetry in N; apply nth_error_nth with (d := 0%R) in N; symmetry; exact N. }
  exists ev, (concat (rows_at n v p)); split; [exact E|split; [unfold len; lia|split; [unfold len; lia|split; [|split]]]].
  - intros i j Hi Hj.
    transitivity (mat_mul n (full n v) (mat_t (full n v)) (nth i p 0%nat) (nth j p 0%nat)).
    + unfold mat_mul, mat_t; apply upto_ext; intros q Hq; rewrite !EV by assumption; reflexivity.
    + rewrite (Hr _ _ (perm_lt n p i P Hi) (perm_lt n p j P Hj)); unfold mat_id.
      destruct (Nat.eqb_spec i j) as [->|Hne]; [rewrite Nat.eqb_refl; reflexivity|].
      destruct (Nat.eqb_spec (nth i p 0%nat) (nth j p 0%nat)) as [Eq|]; [exfalso; apply Hne, (perm_inj n p); assumption|reflexivity].
  - rewrite (residual_ext n (symm n mat) (colpk (loaded n mat)) _ (fun q => colpk a (nth q p 0%nat) (nth q p 0%nat)) _ (fun q => full n v (nth q p 0%nat))).
    + unfold residual.
      rewrite (upto_perm n p (fun q => upto n (fun i => ((upto n (fun j => colpk (loaded n mat) i j * full n v q j) - colpk a q q * full n v q i) * (upto n (fun j => colpk (loaded n mat) i j * full n v q j) - colpk a q q * full n v q i))%R)) P).
      fold (residual n (colpk (loaded n mat)) (fun q => colpk a q q) (full n v)).
      rewrite (residual_basis n _ _ (colpk a) Hr Hc Hb), residual_off.
      * rewrite <- Ho; rewrite <- (off_ext n _ _ Es); lra.
      * exact Hn.
      * intros i j _ _; unfold colpk; rewrite (Nat.max_comm i j), (Nat.min_comm i j); reflexivity.
    + intros i j Hi Hj; symmetry; apply Es; assumption.
    + exact Ee.
    + intros q i Hq Hi; apply EV; assumption.
  - rewrite <- (trace_ext n _ _ Es), <- (trace_basis n _ _ (colpk a) Hc Hb); unfold trace.
    rewrite <- (upto_perm n p (fun q => colpk a q q) P); unfold upto; f_equal.
    apply (nth_ext _ _ 0%R 0%R); [rewrite map_length, seq_length; exact Le|]; intros q Hq; rewrite Le in Hq; rewrite Ee by exact Hq.
    rewrite (nth_indep (map _ _) 0%R (colpk a (nth 0%nat p 0%nat) (nth 0%nat p 0%nat))) by (rewrite map_length, seq_length; exact Hq).
    rewrite (map_nth (fun q => colpk a (nth q p 0%nat) (nth q p 0%nat))), seq_nth by exact Hq; reflexivity.
Qed.

(** ** C81 *)
Theorem C81_orthonormal_eigenvectors :
  forall (s : Serie R) n rows,
  (n = 2 \/ n = 3)%nat -> repr s (sym_size n) rows -> dimension s = Z.of_nat n -> rows <> [] ->
  exists vectors, @eigenVectors R r_num s = Ok (mk (Z.of_nat (n * n)) vectors 3) /\ length vectors = length rows /\
    Forall (fun w => len w = Z.of_nat (n * n) /\ mat_eq n (mat_mul n (full n w) (mat_t (full n w))) mat_id) vectors.
Proof.
  intros s n rows Hn Hs Hd Hne; pose proof (repr_rows _ _ _ Hs) as Rr; unfold rows_of_size in Rr; rewrite Forall_forall in Rr.
  exists (map (@vectors_of R r_num n) rows); split; [apply eigenVectors_ok; assumption|split; [apply map_length|]].
  apply Forall_forall; intros w Hw; apply in_map_iff in Hw; destruct Hw as (r & <- & Hr).
  destruct (item_R n r Hn (Rr r Hr)) as (e & w & E & _ & Lw & O & _); unfold vectors_of; rewrite E; split; assumption.
Qed.
Print Assumptions C81_orthonormal_eigenvectors.

(** whatever the bound and the number of sweeps allowed *)
Theorem C81_any_number_of_sweeps :
  forall n (a : list R) bound (cap : nat),
  (n = 2 \/ n = 3)%nat -> len a = sym_size n ->
  exists a' v thr d, @sweeps R r_num (Z.of_nat n) bound cap 0 ((a, @identity R r_num (Z.of_nat n)), bound) = Ok (((a', v), thr), d) /\
    len v = Z.of_nat (n * n) /\ mat_eq n (mat_mul n (full n v) (mat_t (full n v))) mat_id.
Proof.
  intros n a bound cap Hn L.
  destruct (sweeps_basis n (colpk a) bound cap Hn 0 _ (identity_basis n a bound Hn L)) as ([[a' v] thr] & d & E & ((_ & Lv) & _ & Hr & _)).
  cbn [fst snd] in *; exists a', v, thr, d; split; [exact E|split; [rewrite Nat2Z.inj_mul; exact Lv|exact Hr]].
Qed.
Print Assumptions C81_any_number_of_sweeps.
Example C81_example :
  let s := mk 6 [[2; 1; 0; 2; 1; 2]; [1; 0; 0; 1; 0; 1]]%R 3 in
  repr s (sym_size 3) [[2; 1; 0; 2; 1; 2]; [1; 0; 0; 1; 0; 1]]%R /\ dimension s = Z.of_nat 3 /\
  symm 3 [2; 1; 0; 2; 1; 2]%R 1%nat 2%nat = 1%R /\ ~ mat_eq 2 (mat_mul 2 (full 2 [1; 1; 0; 1]%R) (mat_t (full 2 [1; 1; 0; 1]%R))) mat_id.
Proof.
  split; [change (sym_size 3) with 6; repr_ex|split; [reflexivity|split; [reflexivity|]]]; intros H; specialize (H 0%nat 0%nat ltac:(lia) ltac:(lia)); revert H.
  unfold mat_mul, upto, LinSpec.total, mat_t, full, mat_id; cbn; lra.
Qed.

(** ** C82 *)
Theorem C82_eigenpairs :
  forall (s : Serie R) n rows,
  (n = 2 \/ n = 3)%nat -> repr s (sym_size n) rows -> dimension s = Z.of_nat n -> rows <> [] ->
  exists pairs : list (list R * list R),
    @eigenValues R r_num s = Ok (mk (Z.of_nat n) (map fst pairs) 3) /\ @eigenVectors R r_num s = Ok (mk (Z.of_nat (n * n)) (map snd pairs) 3) /\
    Forall2 (fun mat ew => len (fst ew) = Z.of_nat n /\ len (snd ew) = Z.of_nat (n * n) /\
      (residual n (symm n mat) (fun k => nth k (fst ew) 0) (full n (snd ew)) <= 2 * / 100000 * off n (symm n mat))%R /\
      LinSpec.total (fst ew) = trace n (symm n mat)) rows pairs.
Proof.
  intros s n rows Hn Hs Hd Hne; pose proof (repr_rows _ _ _ Hs) as Rr.
  exists (map (fun r => (@values_of R r_num n r, @vectors_of R r_num n r)) rows); rewrite !map_map; cbn [fst snd].
  split; [apply eigenValues_ok; assumption|split; [apply eigenVectors_ok; assumption|]].
  clear Hs Hd Hne; induction Rr as [|r rows Lr Rr IH]; [constructor|]; cbn [map]; constructor; [|exact IH]; cbn [fst snd].
  destruct (item_R n r Hn Lr) as (e & w & E & Le & Lw & _ & Hres & Ht); unfold vectors_of, values_of; rewrite E; cbn [fst snd]; auto.
Qed.
Print Assumptions C82_eigenpairs.

Theorem C82_stops_before_the_cap :
  forall n (a : list R), (n = 2 \/ n = 3)%nat -> len a = sym_size n ->
  exists a' v thr passes, @jacobi R r_num (Z.of_nat n) a = Ok (((a', v), thr), passes) /\ passes <= 64 /\
    (off n (colpk a') <= / 100000 * off n (colpk a))%R.
Proof.
  intros n a Hn L; destruct (jacobi_R n a Hn L) as ([[a' v] thr] & k & E & [_ Ho] & Hs & Hk); cbn [fst snd] in *.
  exists a', v, thr, (Z.of_nat k); split; [exact E|split; [lia|rewrite <- Ho; lra]].
Qed.
Print Assumptions C82_stops_before_the_cap.

(** the matrix [[0 1][1 0]]: the off-diagonal norm is not 0 and a diagonal answer would be wrong *)
Example C82_example : off 2 (symm 2 [0; 1; 0]%R) = 1%R /\ (residual 2 (symm 2 [0; 1; 0]%R) (fun _ => 0%R) mat_id > 2 * / 100000 * off 2 (symm 2 [0; 1; 0]%R))%R.
Proof. split; [rewrite off2; cbn; ring|]; rewrite off2; unfold residual, upto, LinSpec.total, mat_id, symm, sym2; cbn; lra. Qed.

(** ** C83 *)
Theorem C83_sorted_and_agree :
  forall {T} {NT : Num T} (s : Serie T) n rows,
  (n = 2 \/ n = 3)%nat -> repr s (sym_size n) rows -> dimension s = Z.of_nat n -> rows <> [] -> Z.of_nat (n * n) * len rows < 4294967296 ->
  exists pairs : list (list T * list T),
    let vals := mk (Z.of_nat n) (map fst pairs) 3 in let vecs := mk (Z.of_nat (n * n)) (map snd pairs) 3 in
    eigenValues s = Ok vals /\ eigenVectors s = Ok vecs /\ eigenSystem s = Ok (vals, vecs) /\ length pairs = length rows /\
    Forall (fun ew => len (fst ew) = Z.of_nat n /\ len (snd ew) = Z.of_nat (n * n) /\
      forall good key, ordered_by good key -> Forall good (fst ew) -> StronglySorted (fun x y => (key y <= key x)%R) (fst ew)) pairs.
Proof.
  intros T NT s n rows Hn Hs Hd Hne Hm; pose proof (repr_rows _ _ _ Hs) as Rr; unfold rows_of_size in Rr; rewrite Forall_forall in Rr.
  exists (map (fun r => (values_of n r, vectors_of n r)) rows); cbv zeta; rewrite !map_map; cbn [fst snd].
  split; [apply eigenValues_ok; assumption|split; [apply eigenVectors_ok; assumption|split; [apply eigenSystem_ok; assumption|split; [apply map_length|]]]].
  apply Forall_forall; intros ew Hew; apply in_map_iff in Hew; destruct Hew as (r & <- & Hr); cbn [fst snd].
  destruct (item_ok n r Hn (Rr r Hr)) as (E & Le & Lw); split; [exact Le|split; [exact Lw|]]; intros good key Hord G.
  destruct (symmetric_ok n (loaded n r) Hn (loaded_size n r Hn (Rr r Hr))) as (a & v & thr & d & diag & ev & p & _ & _ & _ & Ld & (_ & So & _) & _ & E' & _).
  unfold eigen_item in E; rewrite E' in E; injection E as E _; rewrite <- E in *.
  apply (sort_decreasing good key (Z.of_nat n) diag ev (map Z.of_nat p) Hord ltac:(lia)); [unfold len; lia|exact So|exact G].
Qed.
Print Assumptions C83_sorted_and_agree.

(** in every arithmetic: one order of the places gives the values and the vectors *)
Theorem C83_vector_belongs_to_value :
  forall {T} {NT : Num T} n (a : list T), (n = 2 \/ n = 3)%nat -> len a = sym_size n ->
  exists st passes diag p vals vecs, jacobi (Z.of_nat n) a = Ok (st, passes) /\
    mapO (fun i => rd (fst (fst st)) (i + i * (i + 1) / 2)) (iota (Z.of_nat n)) = Ok diag /\
    symmetricEigen (Z.of_nat n) a = Ok (vals, vecs) /\
    Permutation p (seq 0 n) /\ map Some vals = map (nth_error diag) p /\
    vecs = concat (map (fun k => firstn n (skipn (k * n) (snd (fst st)))) p).
Proof.
  intros T NT n a Hn L; destruct (symmetric_ok n a Hn L) as (b & v & thr & d & diag & ev & p & Ej & _ & Ed & _ & (P & _ & Sv) & _ & E & _).
  exists ((b, v), thr), d, diag, p, ev, (concat (rows_at n v p)); cbn [fst snd]; repeat split; assumption.
Qed.
Print Assumptions C83_vector_belongs_to_value.

Theorem C83_inconsistent_shapes :
  forall {T} {NT : Num T} (s : Serie T),
  (dimension s = 2 /\ itemSize s <> 3) \/ (dimension s = 3 /\ itemSize s <> 6) ->
  eigenValues s = Throw RuntimeError /\ eigenVectors s = Throw RuntimeError /\ eigenSystem s = Throw RuntimeError.
Proof.
  intros T NT s H; assert (E : eigen_refused s = true).
  { unfold eigen_refused; destruct H as [[-> H]|[-> H]]; apply Z.eqb_neq in H; rewrite H; reflexivity. }
  unfold eigenValues, eigenVectors, eigenSystem; rewrite E; auto.
Qed.
Print Assumptions C83_inconsistent_shapes.

(** an empty Serie: no data from any of the three *)
Theorem C83_empty :
  forall {T} {NT : Num T} (s : Serie T) n,
  (n = 2 \/ n = 3)%nat -> repr s (sym_size n) [] -> dimension s = Z.of_nat n ->
  exists e w e' w', eigenValues s = Ok e /\ eigenVectors s = Ok w /\ eigenSystem s = Ok (e', w') /\ s_ e = [] /\ s_ w = [] /\ s_ e' = [] /\ s_ w' = [].
Proof.
  intros T NT s n Hn Hs Hd; do 4 eexists; split; [|split; [|split; [apply (eigenSystem_ok n s [] Hn Hs Hd); destruct Hn as [-> | ->]; reflexivity|]]].
  - unfold eigenValues; rewrite (not_refused n s [] Hn Hs Hd).
    destruct ((dimension s =? 2) && (itemSize s =? 3))%bool; apply (run_map_vv_empty _ s _ Hs).
  - unfold eigenVectors; rewrite (not_refused n s [] Hn Hs Hd).
    destruct ((dimension s =? 2) && (itemSize s =? 3))%bool; apply (run_map_vv_empty _ s _ Hs).
  - repeat split; reflexivity.
Qed.
Print Assumptions C83_empty.

(** a dimension other than 2 and 3 is not refused: eigenValues and eigenVectors take items of 6 for 3x3 matrices, eigenSystem returns two empty Series *)
Theorem C83_other_dimensions_refuted :
  exists (s : Serie R) vals vecs, repr s 6 [[2; 1; 0; 2; 1; 2]]%R /\ dimension s = 1 /\
    @eigenValues R r_num s = Ok vals /\ @eigenVectors R r_num s = Ok vecs /\ count vals = 1 /\ count vecs = 1 /\
    exists vals' vecs', @eigenSystem R r_num s = Ok (vals', vecs') /\ count vals' = 0 /\ count vecs' = 0.
Proof.
  exists (mk 6 [[2; 1; 0; 2; 1; 2]]%R 1), (mk 3 [@values_of R r_num 3 [2; 1; 0; 2; 1; 2]%R] 3), (mk 9 [@vectors_of R r_num 3 [2; 1; 0; 2; 1; 2]%R] 3).
  destruct (@item_ok R r_num 3 [2; 1; 0; 2; 1; 2]%R (or_intror eq_refl) eq_refl) as (E & Le & Lw).
  split; [repr_ex|split; [reflexivity|split; [|split; [|split; [reflexivity|split; [reflexivity|]]]]]].
  - apply (map_rows_ok _ 6 [[2; 1; 0; 2; 1; 2]]%R (fun mat => let* r := @eigen3 R r_num mat in Ok (fst r)) (@values_of R r_num 3) 3); [repr_ex|discriminate|lia|].
    intros r [<-|[]]; rewrite (@eigen3_item R r_num) by reflexivity; rewrite E; split; [reflexivity|exact Le].
  - apply (map_rows_ok _ 6 [[2; 1; 0; 2; 1; 2]]%R (fun mat => let* r := @eigen3 R r_num mat in Ok (snd r)) (@vectors_of R r_num 3) 9); [repr_ex|discriminate|lia|].
    intros r [<-|[]]; rewrite (@eigen3_item R r_num) by reflexivity; rewrite E; split; [reflexivity|exact Lw].
  - do 2 eexists; split; [reflexivity|split; reflexivity].
Qed.
Print Assumptions C83_other_dimensions_refuted.

Example C83_example :
  @eigenSystem R r_num (mk 3 [[1; 0; 2]]%R 2) = Ok (mk 2 [[2; 1]]%R 3, mk 4 [[0; 1; 1; 0]]%R 3) /\
  repr (mk 3 [[1; 0; 2]]%R 2) (sym_size 2) [[1; 0; 2]]%R /\ ordered_by (NT := r_num) (fun _ => True) (fun x => x).
Proof.
  assert (E : @symmetricEigen R r_num 2 [1; 0; 2]%R = Ok ([2; 1], [0; 1; 1; 0])%R).
  { unfold symmetricEigen; rewrite jacobi2; cbv zeta; cbn [n_add n_mul n_eqb n_of_Z r_num].
    rewrite Raux.Req_bool_true by lra; cbn [negb obind]; change (mapO _ (iota 2)) with (Ok [1; 2]%R) at 1; cbn [obind].
    rewrite sort2_ok; cbn [n_ltb r_num]; rewrite Raux.Rlt_bool_true by lra; reflexivity. }
  split; [|split; [change (sym_size 2) with 3; repr_ex|exact r_ordered]].
  rewrite (eigenSystem_ok (NT := r_num) 2 (mk 3 [[1; 0; 2]]%R 2) [[1; 0; 2]]%R (or_introl eq_refl)); [|change (sym_size 2) with 3; repr_ex|reflexivity|reflexivity].
  unfold map, values_of, vectors_of, eigen_item; change (loaded 2 [1; 0; 2]%R) with [1; 0; 2]%R; change (Z.of_nat 2) with 2; rewrite E; reflexivity.
Qed.
