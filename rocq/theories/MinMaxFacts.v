(** * minMax computes the bounds, for every instance whose comparisons follow a real key. *)
From Verif Require Import Base Num Serie Spec BaseFacts SerieFacts Functional FunctionalFacts Mathf MathFacts Utils F64 OrderFacts.
From Coq Require Import Reals Lra.
Open Scope Z_scope.

Lemma foldO_reads {A B} (get : Z -> outcome A) (g : B -> A -> B) xs : reads get xs ->
  forall b, foldO (fun acc i => let* v := get i in Ok (g acc v)) (iota (len xs)) b = Ok (fold_left g xs b).
Proof.
  intros Hr b; rewrite iota_len.
  assert (G : forall xs a b, (forall j x, nth_error xs j = Some x -> get (Z.of_nat (a + j)) = Ok x) ->
     foldO (fun acc i => let* v := get i in Ok (g acc v)) (seqZ a (length xs)) b = Ok (fold_left g xs b)).
  { clear; induction xs as [|x xs IH]; intros a b Hr; [reflexivity|].
    simpl length; rewrite seqZ_S; cbn [foldO fold_left].
    pose proof (Hr O x eq_refl) as E; rewrite Nat.add_0_r in E; rewrite E; cbn [obind].
    apply IH; intros j y Hj; replace (S a + j)%nat with (a + S j)%nat by lia; apply Hr; exact Hj. }
  apply (G xs O b Hr).
Qed.

Section Bounds.
  Context {T : Type} {NT : Num T} (good : T -> Prop) (key : T -> R) (Hord : ordered_by good key).

  Lemma n_min_key a b : good a -> good b ->
    good (n_min a b) /\ (key (n_min a b) <= key a)%R /\ (key (n_min a b) <= key b)%R /\ (n_min a b = a \/ n_min a b = b).
  Proof.
    intros Ha Hb; unfold n_min; rewrite (keyed_ltb good key Hord b a) by assumption.
    destruct (Rlt_dec (key b) (key a)); repeat split; auto; lra.
  Qed.
  Lemma n_max_key a b : good a -> good b ->
    good (n_max a b) /\ (key a <= key (n_max a b))%R /\ (key b <= key (n_max a b))%R /\ (n_max a b = a \/ n_max a b = b).
  Proof.
    intros Ha Hb; unfold n_max; rewrite (keyed_ltb good key Hord a b) by assumption.
    destruct (Rlt_dec (key a) (key b)); repeat split; auto; lra.
  Qed.

  Lemma fold_min xs : Forall good xs -> forall a, good a ->
    let m := fold_left n_min xs a in
    good m /\ (key m <= key a)%R /\ (forall x, In x xs -> (key m <= key x)%R) /\ In m (a :: xs).
  Proof.
    induction 1 as [|x xs Hx Hxs IH]; intros a Ha; cbv zeta; cbn [fold_left].
    - repeat split; auto; [lra|intros x []|left; reflexivity].
    - destruct (n_min_key a x Ha Hx) as (G & La & Lx & E).
      destruct (IH (n_min a x) G) as (G' & L' & B & I); cbv zeta in *; split; [exact G'|]; split; [lra|]; split.
      + intros y [->|Hy]; [lra|apply B; exact Hy].
      + destruct I as [I|I]; [|right; right; exact I]; rewrite <- I; destruct E as [->| ->]; simpl; auto.
  Qed.
  Lemma fold_max xs : Forall good xs -> forall a, good a ->
    let m := fold_left n_max xs a in
    good m /\ (key a <= key m)%R /\ (forall x, In x xs -> (key x <= key m)%R) /\ In m (a :: xs).
  Proof.
    induction 1 as [|x xs Hx Hxs IH]; intros a Ha; cbv zeta; cbn [fold_left].
    - repeat split; auto; [lra|intros x []|left; reflexivity].
    - destruct (n_max_key a x Ha Hx) as (G & La & Lx & E).
      destruct (IH (n_max a x) G) as (G' & L' & B & I); cbv zeta in *; split; [exact G'|]; split; [lra|]; split.
      + intros y [->|Hy]; [lra|apply B; exact Hy].
      + destruct I as [I|I]; [|right; right; exact I]; rewrite <- I; destruct E as [->| ->]; simpl; auto.
  Qed.
End Bounds.

Section Loops.
  Context {T : Type} {NT : Num T}.

  Lemma isValid_repr (s : Serie T) k rows : repr s k rows -> isValid s = (0 <? k).
  Proof. intros Hs; unfold isValid; rewrite (repr_itemSize_ _ _ _ Hs); reflexivity. Qed.

  Lemma minMax_scalar s (xs : list T) : repr s 1 (col xs) -> xs <> [] ->
    minMax s = Ok ([fold_left n_min xs n_dblmax], [fold_left n_max xs n_lowest]).
  Proof.
    intros Hs Hne; unfold minMax; rewrite (isValid_repr _ _ _ Hs), (repr_count _ _ _ Hs), (repr_itemSize _ _ _ Hs), len_col.
    destruct (Z.eqb_spec (len xs) 0) as [E|_]; [apply len_0 in E; congruence|]; cbn [negb Z.ltb Z.compare Z.eqb Pos.eqb].
    pose proof (foldO_reads (get_double s) (fun (mm : T * T) v => (n_min (fst mm) v, n_max (snd mm) v)) xs (reads_scalar _ _ Hs) (n_dblmax, n_lowest)) as F.
    rewrite F; cbn [obind].
    assert (G : forall xs a b, fold_left (fun (mm : T * T) v => (n_min (fst mm) v, n_max (snd mm) v)) xs (a, b) = (fold_left n_min xs a, fold_left n_max xs b)).
    { clear; induction xs as [|x xs IH]; intros a b; cbn [fold_left fst snd]; [reflexivity|apply IH]. }
    rewrite G; reflexivity.
  Qed.

  Lemma minMax_inner (v mn mx : list T) : length mn = length v -> length mx = length v ->
    foldO (fun (mm : list T * list T) j =>
             let* x := rd v j in
             let* lo := rd (fst mm) j in
             let* hi := rd (snd mm) j in
             let* mn := wr (fst mm) j (n_min lo x) in
             let* mx := wr (snd mm) j (n_max hi x) in
             Ok (mn, mx)) (iota (len v)) (mn, mx) = Ok (map2 n_min mn v, map2 n_max mx v).
  Proof.
    intros L1 L2; rewrite iota_len.
    assert (G : forall rest pre mn mx pmn pmx, length mn = length rest -> length mx = length rest -> length pmn = length pre -> length pmx = length pre ->
      foldO (fun (mm : list T * list T) j =>
             let* x := rd (pre ++ rest) j in
             let* lo := rd (fst mm) j in
             let* hi := rd (snd mm) j in
             let* mn := wr (fst mm) j (n_min lo x) in
             let* mx := wr (snd mm) j (n_max hi x) in
             Ok (mn, mx)) (seqZ (length pre) (length rest)) (pmn ++ mn, pmx ++ mx)
      = Ok (pmn ++ map2 n_min mn rest, pmx ++ map2 n_max mx rest)).
    { clear; induction rest as [|x rest IH]; intros pre [|a mn] [|b mx] pmn pmx L1 L2 P1 P2; try discriminate; [reflexivity|].
      simpl length; rewrite seqZ_S; cbn [foldO fst snd].
      assert (R : forall (p : list T) y q, length p = length pre -> rd (p ++ y :: q) (Z.of_nat (length pre)) = Ok y).
      { intros p y q <-; apply rd_nat; rewrite nth_error_app2, Nat.sub_diag by lia; reflexivity. }
      assert (W : forall (p : list T) y z q, length p = length pre -> wr (p ++ y :: q) (Z.of_nat (length pre)) z = Ok (p ++ z :: q)).
      { intros p y z q <-; rewrite wr_ok by (rewrite len_app, len_cons; pose proof (len_nonneg q); unfold len; lia).
        rewrite Nat2Z.id, upd_nat_mid; reflexivity. }
      rewrite !R by auto; cbn [obind fst snd]; rewrite ?R by auto; cbn [obind]; rewrite !W by auto; cbn [obind map2].
      specialize (IH (pre ++ [x]) mn mx (pmn ++ [n_min a x]) (pmx ++ [n_max b x])).
      rewrite !app_length, <- !app_assoc in IH; simpl length in IH; rewrite !Nat.add_1_r in IH.
      apply IH; simpl in *; lia. }
    apply (G v [] mn mx [] []); auto.
  Qed.

  Lemma minMax_vector s k (r0 : list T) rows : repr s k (r0 :: rows) -> 2 <= k ->
    minMax s = Ok (fold_left (map2 n_min) rows r0, fold_left (map2 n_max) rows r0).
  Proof.
    intros Hs Hk; unfold minMax; rewrite (isValid_repr _ _ _ Hs), (repr_count _ _ _ Hs), (repr_itemSize _ _ _ Hs).
    replace (0 <? k) with true by (symmetry; apply Z.ltb_lt; lia).
    replace (k =? 1) with false by (symmetry; apply Z.eqb_neq; lia).
    replace (len (r0 :: rows) =? 0) with false by (rewrite len_cons; pose proof (len_nonneg rows); symmetry; apply Z.eqb_neq; lia).
    cbn [negb]; rewrite (get_array_nth s k (r0 :: rows) O r0 Hs eq_refl : get_array s 0 = _); cbn [obind].
    rewrite iota_from_1.
    pose proof (repr_rows _ _ _ Hs) as Hr; inversion Hr as [|? ? L0 Hr']; subst.
    assert (Rd : forall j r, nth_error rows j = Some r -> get_array s (Z.of_nat (1 + j)) = Ok r).
    { intros j r Hj; apply (get_array_nth s _ (r0 :: rows) (S j) r Hs); exact Hj. }
    assert (G : forall rows a mn mx, rows_of_size (len r0) rows -> length mn = length r0 -> length mx = length r0 ->
      (forall j r, nth_error rows j = Some r -> get_array s (Z.of_nat (a + j)) = Ok r) ->
      foldO (fun (mm : list T * list T) i =>
               let* v := get_array s i in
               foldO (fun (mm : list T * list T) j =>
                        let* x := rd v j in
                        let* lo := rd (fst mm) j in
                        let* hi := rd (snd mm) j in
                        let* mn := wr (fst mm) j (n_min lo x) in
                        let* mx := wr (snd mm) j (n_max hi x) in
                        Ok (mn, mx)) (iota (len v)) mm) (seqZ a (length rows)) (mn, mx)
      = Ok (fold_left (map2 n_min) rows mn, fold_left (map2 n_max) rows mx)).
    { clear; induction rows as [|r rows IH]; intros a mn mx Hr L1 L2 Hg; [reflexivity|].
      inversion Hr as [|? ? Lr Hr']; subst; simpl length; rewrite seqZ_S; cbn [foldO fold_left].
      pose proof (Hg O r eq_refl) as E; rewrite Nat.add_0_r in E; rewrite E; cbn [obind].
      assert (length r = length r0) by (unfold len in Lr; lia).
      rewrite minMax_inner by congruence; cbn [obind].
      apply IH; auto; try (rewrite map2_length; congruence).
      intros j x Hj; replace (S a + j)%nat with (a + S j)%nat by lia; apply Hg; exact Hj. }
    apply G; auto.
  Qed.

  (** one column of a component-wise fold *)
  Lemma fold_map2_column (f : T -> T -> T) d c k rows r0 : rows_of_size k rows -> len r0 = k -> (Z.of_nat c < k) ->
    nth c (fold_left (map2 f) rows r0) d = fold_left f (map (fun r => nth c r d) rows) (nth c r0 d) /\
    len (fold_left (map2 f) rows r0) = k.
  Proof.
    intros Hr; revert r0; induction Hr as [|r rows Lr Hr IH]; intros r0 L0 Hc; cbn [fold_left map]; [auto|].
    assert (E : nth c (map2 f r0 r) d = f (nth c r0 d) (nth c r d)).
    { apply nth_error_nth; apply nth_error_map2; apply nth_error_nth'; unfold len in *; lia. }
    rewrite <- E; apply IH; [rewrite len_map2; congruence|exact Hc].
  Qed.
End Loops.
