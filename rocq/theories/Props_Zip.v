(** * C35 - C38: zip, zipVector, unzip. *)
From Verif Require Import Base Num Serie Spec BaseFacts SerieFacts Functional FunctionalFacts Utils UtilsFacts
  F64 F64Facts Props_Functional Props_Filter Props_Fold Props_Merge Props_Partition.

Ltac Zify.zify_post_hook ::= Z.div_mod_to_equations.
Opaque f64_of_Z.
#[local] Existing Instance F64N.

Definition row_set {T} (c : Z) (v r : list T) : list T :=
  firstn (Z.to_nat c) r ++ v ++ skipn (Z.to_nat c + length v) r.

Section Zip.
  Context {T : Type} {NT : Num T}.

  Lemma foldO_setScalar (v : list T) (g : Z -> Z) l : forall (s : Serie T) d',
    foldO (fun d j => let* x := rd v j in wr d (g j) x) l (s_ s) = Ok d' ->
    foldO (fun r j => let* x := rd v j in setScalar r (g j) x) l s = Ok (with_data s d').
  Proof.
    induction l as [|j l IH]; intros s d' E; simpl in *; [injection E as <-; destruct s; reflexivity|].
    destruct (rd v j) as [x| |]; simpl in *; try discriminate.
    unfold setScalar; unfold wr in *.
    destruct (Z.leb_spec 0 (g j)); [|discriminate]; destruct (Z.ltb_spec (g j) (len (s_ s))); [|discriminate].
    destruct (Z.leb_spec (len (s_ s)) (g j)); [lia|]; simpl in *.
    rewrite (IH (with_data s _) d') by exact E; reflexivity.
  Qed.

  Lemma row_split c k (r : list T) : 0 <= c -> 0 <= k -> c + k <= len r ->
    r = firstn (Z.to_nat c) r ++ firstn (Z.to_nat k) (skipn (Z.to_nat c) r) ++ skipn (Z.to_nat c + Z.to_nat k) r.
  Proof.
    intros Hc Hk Hl; rewrite <- (firstn_skipn (Z.to_nat c) r) at 1; f_equal.
    rewrite <- (firstn_skipn (Z.to_nat k) (skipn (Z.to_nat c) r)) at 1; f_equal.
    apply skipn_skipn'.
  Qed.

  Lemma rows_col_ex (rows : list (list T)) : rows_of_size 1 rows -> exists xs, rows = col xs.
  Proof. intros Hr; exists (concat rows); apply rows_size1_col; exact Hr. Qed.

  Definition zip_item (s : Serie T) (itemIndex : Z) (result : Serie T) (i : Z) : outcome (Serie T) :=
    if itemSize s =? 1 then
      let* x := scalar s i in
      setScalar result (u32 (u32 (i * itemSize result) + itemIndex)) x
    else
      let* values := value s i in
      foldO (fun result j =>
               let* x := rd values j in
               setScalar result (u32 (u32 (u32 (i * itemSize result) + itemIndex) + j)) x)
            (iota (itemSize s)) result.

  Lemma len_rowset c v (r : list T) : 0 <= c -> c + len v <= len r -> len (row_set c v r) = len r.
  Proof.
    intros Hc Hl; unfold row_set, len in *; rewrite !app_length, firstn_length, skipn_length; lia.
  Qed.

  Lemma foldO_cong_inv {A B} (P : A -> Prop) (f g : A -> B -> outcome A) l :
    (forall a x, P a -> In x l -> f a x = g a x) -> (forall a x a', P a -> In x l -> f a x = Ok a' -> P a') ->
    forall a, P a -> foldO f l a = foldO g l a.
  Proof.
    intros He Hp; induction l as [|x l IH]; intros a Ha; [reflexivity|]; simpl.
    rewrite <- He by (auto; left; reflexivity); destruct (f a x) as [a'| |] eqn:E; simpl; auto.
    apply IH; [intros; apply He; auto; right; assumption|intros b y b' Hb Hy; apply (Hp b y b' Hb); right; exact Hy|].
    eapply Hp; eauto; left; reflexivity.
  Qed.

  Lemma zip_item_ok (s : Serie T) k rows K c pre r post v dim i :
    repr s k rows -> nth_error rows i = Some v -> i = length pre ->
    0 <= c -> c + k <= K -> 0 <= K < 2147483648 ->
    rows_of_size K (pre ++ r :: post) -> K * len (pre ++ r :: post) < 4294967296 ->
    zip_item s c (mk K (pre ++ r :: post) dim) (Z.of_nat i)
    = Ok (with_data (mk K (pre ++ r :: post) dim) (concat (pre ++ row_set c v r :: post))).
  Proof.
    intros Hs Hv Hi Hc Hck HK Hrows Hm.
    assert (Hk : 0 <= k < 2147483648) by apply Hs.
    pose proof (rows_nth k rows i v (repr_rows _ _ _ Hs) Hv) as Lv.
    apply rows_app in Hrows; destruct Hrows as [Hpre Hrest]; inversion Hrest as [|? ? Lr Hpost]; subst x l.
    pose proof (len_concat K pre Hpre) as Lpre.
    pose proof (len_nonneg pre); pose proof (len_nonneg post).
    rewrite len_app, len_cons in Hm.
    assert (EK : itemSize (mk K (pre ++ r :: post) dim) = K) by (unfold itemSize; simpl; apply u32_small; lia).
    assert (Ei : Z.of_nat i = len pre) by (subst i; reflexivity).
    assert (EA : u32 (u32 (Z.of_nat i * K) + c) = len (concat pre ++ firstn (Z.to_nat c) r)).
    { rewrite Ei, (u32_small (len pre * K)), u32_small by nia.
      rewrite len_app, Lpre; unfold len in *; rewrite firstn_length; lia. }
    assert (Ed : concat (pre ++ r :: post)
                 = (concat pre ++ firstn (Z.to_nat c) r) ++ firstn (Z.to_nat k) (skipn (Z.to_nat c) r)
                   ++ (skipn (Z.to_nat c + Z.to_nat k) r ++ concat post)).
    { rewrite concat_app; simpl; rewrite (row_split c k r) at 1 by lia; rewrite <- !app_assoc; reflexivity. }
    assert (Ed' : concat (pre ++ row_set c v r :: post)
                 = (concat pre ++ firstn (Z.to_nat c) r) ++ v ++ (skipn (Z.to_nat c + Z.to_nat k) r ++ concat post)).
    { rewrite concat_app; simpl; unfold row_set; rewrite <- !app_assoc.
      replace (length v) with (Z.to_nat k) by (unfold len in Lv; lia); reflexivity. }
    assert (Lold : length v = length (firstn (Z.to_nat k) (skipn (Z.to_nat c) r))).
    { rewrite firstn_length, skipn_length; unfold len in *; lia. }
    pose proof (write_block (concat pre ++ firstn (Z.to_nat c) r) _ v (skipn (Z.to_nat c + Z.to_nat k) r ++ concat post) Lold) as W.
    set (P := concat pre ++ firstn (Z.to_nat c) r) in *.
    assert (LP : 0 <= len P /\ len P + k <= 4294967295).
    { unfold P; rewrite len_app, Lpre; unfold len in *; rewrite firstn_length; nia. }
    unfold zip_item; rewrite (repr_itemSize _ _ _ Hs), EK.
    destruct (Z.eqb_spec k 1) as [->|Hk1].
    - destruct v as [|x [|x2 v]]; [discriminate| |rewrite !len_cons in Lv; pose proof (len_nonneg v); lia].
      destruct (rows_col_ex rows (repr_rows _ _ _ Hs)) as (xs & Exs); subst rows.
      assert (Hx : nth_error xs i = Some x).
      { unfold col in Hv; rewrite nth_error_map in Hv; destruct (nth_error xs i); simpl in Hv; congruence. }
      rewrite (repr_nth_scalar' s xs Hs i x Hx : scalar s (Z.of_nat i) = Ok x); cbn [obind]; rewrite EA.
      pose proof (foldO_setScalar [x] (fun j => len P + j) (iota (len [x])) (mk K (pre ++ r :: post) dim)
                    (P ++ [x] ++ skipn (Z.to_nat c + Z.to_nat 1) r ++ concat post)) as F.
      cbn [s_ mk] in F; rewrite Ed in F; specialize (F W); rewrite Ed'.
      change (iota (len [x])) with [0] in F; simpl in F; rewrite Z.add_0_r in F.
      change (rd [x] 0) with (Ok x) in F; simpl in F.
      destruct (setScalar (mk K (pre ++ r :: post) dim) (len P) x); simpl in *; congruence.
    - rewrite (repr_nth_value s k rows Hs i v Hv : value s (Z.of_nat i) = Ok v); cbn [obind].
      rewrite (foldO_cong_inv (fun q => itemSize q = K) _
                 (fun q j => let* x := rd v j in setScalar q (len P + j) x)); [| | |exact EK].
      + rewrite <- Lv; rewrite Ed'; apply foldO_setScalar; cbn [s_ mk]; rewrite Ed; exact W.
      + intros q j Eq Hj; apply in_iota in Hj; cbv beta; rewrite Eq, EA.
        rewrite u32_small by lia; reflexivity.
      + intros q j q' Eq Hj; cbv beta; destruct (rd v j) as [x| |]; simpl; try discriminate.
        unfold setScalar; destruct (len (s_ q) <=? _); [discriminate|].
        destruct (wr (s_ q) _ x); simpl; try discriminate; intros Eq2; injection Eq2 as <-; exact Eq.
  Qed.

  Lemma zip_copy_ok (s : Serie T) k rows K c rf n dim :
    repr s k rows -> length rows = n -> 0 <= c -> c + k <= K -> 0 <= K < 2147483648 ->
    (forall i, (i < n)%nat -> len (rf i) = K) -> K * Z.of_nat n < 4294967296 ->
    zip_copy (Z.of_nat n) s c (mk K (map rf (seq 0 n)) dim)
    = Ok (mk K (map (fun i => row_set c (nth i rows []) (rf i)) (seq 0 n)) dim).
  Proof.
    intros Hs Hn Hc Hck HK Hrf Hm; unfold zip_copy; rewrite (iota_seqZ (Z.of_nat n)), Nat2Z.id.
    change (foldO _ (seqZ 0 n) _) with (foldO (zip_item s c) (seqZ 0 n) (mk K (map rf (seq 0 n)) dim)).
    set (new := fun i => row_set c (nth i rows []) (rf i)).
    assert (Hrl : forall i, (i < n)%nat -> len (nth i rows []) = k).
    { intros i Hi; destruct (nth_error rows i) as [v|] eqn:E; [|apply nth_error_None in E; lia].
      rewrite (nth_error_nth _ _ _ E); eapply rows_nth; [apply Hs|exact E]. }
    assert (Hnew : forall i, (i < n)%nat -> len (new i) = K).
    { intros i Hi; unfold new; rewrite len_rowset; rewrite ?Hrl, ?Hrf by exact Hi; auto. }
    assert (G : forall m i, (i + m = n)%nat ->
      foldO (zip_item s c) (seqZ i m) (mk K (map new (seq 0 i) ++ map rf (seq i m)) dim)
      = Ok (mk K (map new (seq 0 n)) dim)).
    { induction m as [|m IH]; intros i Him.
      - simpl; rewrite app_nil_r; replace n with i by lia; reflexivity.
      - rewrite seqZ_S; cbn [foldO seq map].
        destruct (nth_error rows i) as [v|] eqn:E; [|apply nth_error_None in E; lia].
        assert (Hsz : rows_of_size K (map new (seq 0 i) ++ rf i :: map rf (seq (S i) m))).
        { apply rows_app; split; [|constructor; [apply Hrf; lia|]];
            apply Forall_map, Forall_forall; intros j Hj; apply in_seq in Hj; [apply Hnew|apply Hrf]; lia. }
        assert (Hlen : len (map new (seq 0 i) ++ rf i :: map rf (seq (S i) m)) = Z.of_nat n).
        { unfold len; rewrite app_length; simpl; rewrite !map_length, !seq_length; lia. }
        rewrite (zip_item_ok s k rows K c _ _ _ v dim i Hs E); auto.
        + cbn [obind].
          replace (with_data (mk K (map new (seq 0 i) ++ rf i :: map rf (seq (S i) m)) dim)
                     (concat (map new (seq 0 i) ++ row_set c v (rf i) :: map rf (seq (S i) m))))
            with (mk K (map new (seq 0 (S i)) ++ map rf (seq (S i) m)) dim); [apply IH; lia|].
          unfold mk, with_data; simpl count_; simpl dimension_; simpl itemSize_.
          rewrite seq_S, map_app, <- app_assoc; simpl.
          assert (En : new i = row_set c v (rf i)) by (unfold new; rewrite (nth_error_nth _ _ _ E); reflexivity).
          rewrite En; f_equal.
          unfold len; rewrite !app_length; simpl; reflexivity.
        + rewrite map_length, seq_length; reflexivity.
        + rewrite Hlen; exact Hm. }
    exact (G n 0%nat eq_refl).
  Qed.

  Definition zrest (m : Z) : list T := repeat n0 (Z.to_nat m).

  Lemma row_set_next c k (a v : list T) m : len a = c -> len v = k -> 0 <= k <= m ->
    row_set c v (a ++ zrest m) = (a ++ v) ++ zrest (m - k).
  Proof.
    intros Ha Hv Hm; unfold row_set, zrest.
    replace (Z.to_nat c) with (length a) by (unfold len in Ha; lia).
    rewrite firstn_app, firstn_all, Nat.sub_diag; simpl; rewrite app_nil_r, <- app_assoc.
    do 2 f_equal; rewrite skipn_app, skipn_all2 by lia; simpl.
    replace (length a + length v - length a)%nat with (length v) by lia.
    replace (Z.to_nat m) with (length v + Z.to_nat (m - k))%nat by (unfold len in Hv; lia).
    rewrite repeat_app, skipn_app, skipn_all2 by (rewrite repeat_length; lia).
    rewrite repeat_length, Nat.sub_diag; reflexivity.
  Qed.

  (* widths of the rows of several tables *)
  Lemma across_width (ss : list (Serie T)) kts n i :
    reprs ss kts -> same_count (Z.of_nat n) kts -> (i < n)%nat ->
    len (concat (across (map snd kts) i)) = sumZ (map fst kts).
  Proof.
    intros Hr Hc Hi; induction Hr as [|s [k t] ss kts Hs Hr IH]; [reflexivity|].
    inversion Hc as [|? ? Hl Hc']; subst; simpl in *; rewrite len_app.
    fold (across (map snd kts) i); rewrite (IH Hc'); f_equal.
    destruct (nth_error t i) as [v|] eqn:E; [|apply nth_error_None in E; unfold len in Hl; lia].
    rewrite (nth_error_nth _ _ _ E); eapply rows_nth; [apply Hs|exact E].
  Qed.

  Lemma sumZ_nonneg (ss : list (Serie T)) kts : reprs ss kts -> 0 <= sumZ (map fst kts).
  Proof.
    intros Hr; induction Hr as [|s [k t] ss kts Hs Hr IH]; simpl in *; [lia|].
    assert (0 <= k) by apply Hs; lia.
  Qed.
  Lemma sumZ_app a b : sumZ (a ++ b) = sumZ a + sumZ b.
  Proof. unfold sumZ; induction a as [|x a IH]; simpl; lia. Qed.

  Lemma zip_loop (copies : Serie T -> Z) n K dim : 0 <= K < 2147483648 -> K * Z.of_nat n < 4294967296 ->
    forall ss kts, reprs ss kts -> same_count (Z.of_nat n) kts ->
    (forall s, In s ss -> copies s = Z.of_nat n) ->
    forall ssd done, reprs ssd done -> same_count (Z.of_nat n) done ->
    sumZ (map fst done) + sumZ (map fst kts) = K ->
    let c := sumZ (map fst done) in
    foldO (fun (st : Serie T * Z) s =>
             let* r := zip_copy (copies s) s (snd st) (fst st) in Ok (r, u32 (snd st + itemSize s)))
          ss (mk K (map (fun i => concat (across (map snd done) i) ++ zrest (K - c)) (seq 0 n)) dim, c)
    = Ok (mk K (map (@concat T) (tuples n (map snd (done ++ kts)))) dim, K).
  Proof.
    intros HK Hm ss kts Hr; induction Hr as [|s [k t] ss kts Hs Hr IH]; intros Hc Hcp ssd done Hrd Hcd Hsum c.
    - simpl in Hsum; cbn [foldO]; rewrite app_nil_r.
      do 2 f_equal; [|unfold c; lia]; unfold tuples; rewrite map_map; f_equal; apply map_ext; intros i.
      replace (K - c) with 0 by (unfold c; lia); apply app_nil_r.
    - inversion Hc as [|? ? Hl Hc']; subst x l; simpl in Hs, Hl, Hsum; fold (sumZ (map fst kts)) in Hsum; cbn [foldO fst snd].
      pose proof (sumZ_nonneg ssd done Hrd) as Hp1; pose proof (sumZ_nonneg ss kts Hr) as Hp2.
      assert (Hk : 0 <= k < 2147483648) by apply Hs.
      rewrite (Hcp s (or_introl eq_refl)).
      rewrite (zip_copy_ok s k t K c _ n dim Hs); try (unfold len in Hl; lia); auto.
      + cbn [obind]; rewrite (repr_itemSize _ _ _ Hs), u32_small by (unfold c; lia).
        specialize (IH Hc' (fun s' Hin => Hcp s' (or_intror Hin)) (ssd ++ [s]) (done ++ [(k, t)])).
        rewrite <- app_assoc in IH; cbn [app] in IH; rewrite <- IH.
        * rewrite (map_app fst done [(k, t)]), sumZ_app; simpl map; cbn [sumZ fold_right fst].
          do 2 f_equal; [|unfold c; lia]; f_equal; apply map_ext_in; intros i Hi; apply in_seq in Hi.
          unfold across; rewrite !map_app, concat_app; cbn [map snd concat]; rewrite app_nil_r.
          rewrite (row_set_next c k); [f_equal; f_equal; unfold c; lia| | |unfold c; lia].
          -- apply (across_width ssd done n i Hrd Hcd); lia.
          -- destruct (nth_error t i) as [v|] eqn:E; [|apply nth_error_None in E; unfold len in Hl; lia].
             rewrite (nth_error_nth _ _ _ E); eapply rows_nth; [apply Hs|exact E].
        * apply Forall2_app; [exact Hrd|constructor; [exact Hs|constructor]].
        * apply Forall_app; split; [exact Hcd|constructor; [exact Hl|constructor]].
        * rewrite map_app, sumZ_app; simpl; lia.
      + intros i Hi; rewrite len_app, (across_width ssd done n i Hrd Hcd Hi).
        unfold zrest; rewrite len_repeat; unfold c; lia.
  Qed.

  Lemma zip_start n K dim : 0 <= K -> 0 <= n -> K * n < 4294967296 ->
    @serie_n T NT K n dim
    = mk K (map (fun i => concat (across (map snd (@nil (Z * list (list T)))) i) ++ zrest (K - 0)) (seq 0 (Z.to_nat n))) dim.
  Proof.
    intros HK Hn Hm; rewrite serie_n_mk by lia; f_equal; unfold zrows; simpl.
    rewrite Z.sub_0_r; unfold zrest; change (zrow K) with (repeat (@n0 T NT) (Z.to_nat K)).
    generalize (repeat (@n0 T NT) (Z.to_nat K)); intros z; generalize 0%nat.
    induction (Z.to_nat n) as [|m IH]; intros a; simpl; [reflexivity|f_equal; apply IH].
  Qed.

  Lemma reprs_itemSizes (ss : list (Serie T)) kts : reprs ss kts -> map itemSize ss = map fst kts.
  Proof.
    intros Hr; induction Hr as [|s [k t] ss kts Hs Hr IH]; [reflexivity|]; simpl in *.
    rewrite (repr_itemSize _ _ _ Hs), IH; reflexivity.
  Qed.
  Lemma reprs_valid (ss : list (Serie T)) kts : reprs ss kts -> Forall (fun kt => 1 <= fst kt) kts ->
    forallb isValid ss = true.
  Proof.
    intros Hr Hv; induction Hr as [|s [k t] ss kts Hs Hr IH]; [reflexivity|]; inversion Hv; subst; simpl in *.
    rewrite IH by assumption; unfold isValid; rewrite (repr_itemSize_ _ _ _ Hs).
    destruct (Z.ltb_spec 0 k); [reflexivity|lia].
  Qed.
  Lemma reprs_counts (ss : list (Serie T)) kts n : reprs ss kts -> same_count n kts ->
    forall s, In s ss -> count s = n.
  Proof.
    intros Hr Hc; induction Hr as [|s [k t] ss kts Hs Hr IH]; intros s' Hin; [destruct Hin|].
    inversion Hc as [|? ? Hl Hc']; subst; destruct Hin as [<-|Hin]; [|apply IH; auto].
    rewrite (repr_count _ _ _ Hs); reflexivity.
  Qed.

  Lemma zip_both (ss : list (Serie T)) kts n :
    ss <> [] -> reprs ss kts -> same_count n kts -> Forall (fun kt => 1 <= fst kt) kts -> 0 <= n ->
    sumZ (map fst kts) < 2147483648 -> sumZ (map fst kts) * n < 4294967296 ->
    zip_series ss = Ok (mk (sumZ (map fst kts)) (map (@concat T) (tuples (Z.to_nat n) (map snd kts))) 3) /\
    zipVector ss = Ok (mk (sumZ (map fst kts)) (map (@concat T) (tuples (Z.to_nat n) (map snd kts))) 3).
  Proof.
    intros Hne Hr Hc Hv Hn HK Hm.
    pose proof (sumZ_nonneg ss kts Hr) as Hp.
    pose proof (reprs_countAndCheck ss kts n Hne Hr Hc) as Hcc.
    pose proof (reprs_itemSizes ss kts Hr) as His.
    assert (Hn' : Z.of_nat (Z.to_nat n) = n) by lia.
    assert (L : forall copies, (forall s, In s ss -> copies s = n) ->
      foldO (fun (st : Serie T * Z) s =>
             let* r := zip_copy (copies s) s (snd st) (fst st) in Ok (r, u32 (snd st + itemSize s)))
          ss (serie_n (sumZ (map fst kts)) n 3, 0)
      = Ok (mk (sumZ (map fst kts)) (map (@concat T) (tuples (Z.to_nat n) (map snd kts))) 3, sumZ (map fst kts))).
    { intros copies Hcp; rewrite zip_start by lia.
      apply (zip_loop copies (Z.to_nat n) (sumZ (map fst kts)) 3) with (ssd := []) (done := []); auto; try lia;
        try (rewrite Hn'; assumption).
      - constructor.
      - constructor. }
    split.
    - unfold zip_series; rewrite (reprs_valid ss kts Hr Hv), Hcc; cbn [negb obind].
      rewrite His; fold (sumZ (map fst kts)); rewrite u32_small, s32_small by lia.
      rewrite (L count (reprs_counts ss kts n Hr Hc)); reflexivity.
    - unfold zipVector; destruct ss as [|s0 ss']; [congruence|].
      rewrite (reprs_valid _ kts Hr Hv), Hcc; cbn [negb obind].
      rewrite His; fold (sumZ (map fst kts)); rewrite u32_small, s32_small by lia.
      rewrite (L (fun _ => n) (fun _ _ => eq_refl)); reflexivity.
  Qed.
End Zip.

(** ** C35 *)
Theorem C35_zip :
  forall (T : Type) (NT : Num T) (ss : list (Serie T)) kts n,
  ss <> [] -> reprs ss kts -> same_count n kts -> Forall (fun kt => 1 <= fst kt) kts ->
  sumZ (map fst kts) < 2 ^ 31 -> sumZ (map fst kts) * n < 2 ^ 32 ->
  let zipped := mk (sumZ (map fst kts)) (map (@concat T) (tuples (Z.to_nat n) (map snd kts))) 3 in
  zip_series ss = Ok zipped /\ zipVector ss = Ok zipped.
Proof.
  intros T NT ss kts n Hne Hr Hc Hv HK Hm; apply zip_both; auto.
  destruct Hc as [|[k t] kts Hl _]; [inversion Hr; congruence|]; simpl in Hl; pose proof (len_nonneg t); lia.
Qed.
Print Assumptions C35_zip.

(** refused when a Serie is invalid, counts differ or the list of zipVector is empty *)
Theorem C35_zip_refused :
  forall (T : Type) (NT : Num T) (ss : list (Serie T)),
  ((exists s, In s ss /\ isValid s = false) \/ (exists s1 s2, In s1 ss /\ In s2 ss /\ count s1 <> count s2) ->
   zip_series ss = Throw InvalidArgument /\ zipVector ss = Throw InvalidArgument) /\
  zipVector (@nil (Serie T)) = Throw InvalidArgument.
Proof.
  intros T NT ss; split; [|reflexivity].
  intros H; unfold zip_series, zipVector; destruct ss as [|s0 ss].
  { destruct H as [(s & [] & _)|(s1 & s2 & [] & _)]. }
  destruct (forallb isValid (s0 :: ss)) eqn:Ev; [|split; reflexivity]; cbn [negb].
  assert (Hcc : countAndCheck (s0 :: ss) = Throw InvalidArgument).
  { destruct H as [(s & Hin & Hs)|(s1 & s2 & H1 & H2 & Hne)].
    - rewrite forallb_forall in Ev; rewrite (Ev s Hin) in Hs; discriminate.
    - unfold countAndCheck; destruct (forallb (fun s => count s =? count s0) ss) eqn:E; [|reflexivity].
      exfalso; apply Hne; rewrite forallb_forall in E.
      assert (G : forall x, In x (s0 :: ss) -> count x = count s0).
      { intros x [<-|Hx]; [reflexivity|]; apply Z.eqb_eq, E, Hx. }
      rewrite (G _ H1), (G _ H2); reflexivity. }
  rewrite Hcc; split; reflexivity.
Qed.
Print Assumptions C35_zip_refused.

Example C35_witness :
  let a := mk 1 (col [#1; #2]) 3 in let b := mk 2 [[#3; #4]; [#5; #6]] 3 in
  reprs [a; b] [(1, col [#1; #2]); (2, [[#3; #4]; [#5; #6]])] /\
  same_count 2 [(1, col [#1; #2]); (2, [[#3; #4]; [#5; #6]])] /\
  zip_series [a; b] = Ok (mk 3 [[#1; #3; #4]; [#2; #5; #6]] 3).
Proof.
  split; [constructor; [repr_ex|constructor; [repr_ex|constructor]]|]; split; [repeat constructor|reflexivity].
Qed.

(** ** unzip *)
Section Unzip.
  Context {T : Type} {NT : Num T}.

  Definition cut_row (c k : Z) (r : list T) : list T := firstn (Z.to_nat k) (skipn (Z.to_nat c) r).

  Lemma scalar_at (s : Serie T) K rows P r Q c j :
    repr s K rows -> rows = P ++ r :: Q -> 0 <= c -> 0 <= j -> c + j < K ->
    scalar s (len (concat P) + c + j) = rd r (c + j).
  Proof.
    intros Hs Hrows Hc Hj Hlt; unfold scalar; rewrite (repr_size s K rows Hs).
    destruct Hs as (Hk & Hcn & (t & Hd) & Hr & Hb & Hn & Hm).
    assert (HrP : rows_of_size K P /\ len r = K).
    { rewrite Hrows in Hr; apply rows_app in Hr; destruct Hr as [HP Hr]; inversion Hr; split; assumption. }
    destruct HrP as [HP Lr]; pose proof (len_concat K P HP) as LP.
    assert (Ln : len rows = len P + len Q + 1) by (rewrite Hrows, len_app, len_cons; lia).
    pose proof (len_nonneg P); pose proof (len_nonneg Q).
    destruct (Z.ltb_spec (K * len rows) (len (concat P) + c + j)) as [|_]; [nia|].
    rewrite Hd, Hrows, concat_app; simpl; rewrite <- !app_assoc.
    rewrite !rd_nth_error.
    destruct (Z.leb_spec 0 (len (concat P) + c + j)); [|nia].
    destruct (Z.leb_spec 0 (c + j)); [|lia].
    rewrite nth_error_app2 by (unfold len in *; lia).
    rewrite nth_error_app1 by (unfold len in *; lia).
    replace (Z.to_nat (len (concat P) + c + j) - length (concat P))%nat with (Z.to_nat (c + j)) by (unfold len; lia); reflexivity.
  Qed.

  Lemma unzip_read (s : Serie T) K rows i r c k j :
    repr s K rows -> nth_error rows i = Some r -> 0 <= c -> 0 <= j < k -> c + k <= K ->
    scalar s (u32 (u32 (u32 (Z.of_nat i * K) + c) + j)) = rd (cut_row c k r) j.
  Proof.
    intros Hs Hr Hc Hj Hck.
    destruct (split_row rows i r Hr) as (P & Q & Hrows & HP).
    assert (HB : 0 <= K < 2147483648) by apply Hs.
    assert (Hm : K * len rows < 4294967296) by apply Hs.
    assert (HrP : rows_of_size K P /\ len r = K).
    { pose proof (repr_rows _ _ _ Hs) as Hr'; rewrite Hrows in Hr'; apply rows_app in Hr'; destruct Hr' as [HP' Hr']; inversion Hr'; split; assumption. }
    destruct HrP as [HP' Lr]; pose proof (len_concat K P HP') as LP.
    assert (Ln : len rows = len P + len Q + 1) by (rewrite Hrows, len_app, len_cons; lia).
    pose proof (len_nonneg P); pose proof (len_nonneg Q).
    assert (Ei : Z.of_nat i = len P) by (subst i; reflexivity).
    rewrite Ei, (u32_small (len P * K)), (u32_small (len P * K + c)), u32_small by nia.
    replace (len P * K + c + j) with (len (concat P) + c + j) by lia.
    rewrite (scalar_at s K rows P r Q c j Hs Hrows) by lia.
    unfold cut_row; rewrite !rd_nth_error; destruct (Z.leb_spec 0 (c + j)), (Z.leb_spec 0 j); try lia.
    assert (G1 : forall A n (l : list A) j, (j < n)%nat -> nth_error (firstn n l) j = nth_error l j).
    { clear; induction n as [|n IH]; intros l j0 Hj0; [lia|]; destruct l; [reflexivity|]; destruct j0; [reflexivity|].
      simpl; apply IH; lia. }
    assert (G2 : forall A n (l : list A) j, nth_error (skipn n l) j = nth_error l (n + j)).
    { clear; induction n as [|n IH]; intros l j0; [reflexivity|]; destruct l; [destruct j0; reflexivity|simpl; apply IH]. }
    rewrite G1, G2 by lia; replace (Z.to_nat (c + j)) with (Z.to_nat c + Z.to_nat j)%nat by lia; reflexivity.
  Qed.

  Lemma cut_row_len c k (r : list T) : 0 <= c -> 0 <= k -> c + k <= len r -> len (cut_row c k r) = k.
  Proof. intros; unfold cut_row, len in *; rewrite firstn_length, skipn_length; lia. Qed.

  Lemma unzip_one_ok (s : Serie T) K rows c k :
    repr s K rows -> 0 <= c -> 0 <= k -> c + k <= K ->
    unzip_one s c k = Ok (mk k (map (cut_row c k) rows) 3).
  Proof.
    intros Hs Hc Hk Hck; unfold unzip_one; rewrite (repr_count _ _ _ Hs), (repr_itemSize _ _ _ Hs).
    assert (HB : 0 <= K < 2147483648) by apply Hs.
    assert (Hm : K * len rows < 4294967296) by apply Hs.
    assert (Hl : len rows < 4294967296) by apply Hs.
    pose proof (len_nonneg rows).
    rewrite s32_small by lia.
    assert (Hsz : rows_of_size k (map (cut_row c k) rows)).
    { apply Forall_map, Forall_forall; intros r Hin; apply cut_row_len; try lia.
      pose proof (repr_rows _ _ _ Hs) as Hr; unfold rows_of_size in Hr; rewrite Forall_forall in Hr; rewrite (Hr r Hin); lia. }
    assert (Hin : forall i r', nth_error (map (cut_row c k) rows) i = Some r' ->
                  exists r, nth_error rows i = Some r /\ r' = cut_row c k r /\ len r' = k).
    { intros i r' E; rewrite nth_error_map in E; destruct (nth_error rows i) as [r|] eqn:Er; [|discriminate].
      injection E as <-; exists r; split; [reflexivity|]; split; [reflexivity|].
      apply cut_row_len; try lia; rewrite (rows_nth K rows i r (repr_rows _ _ _ Hs) Er); lia. }
    destruct (Z.eqb_spec k 1) as [->|Hk1].
    - destruct (rows_col_ex _ Hsz) as (xs & Exs); rewrite Exs.
      assert (El : len rows = len xs) by (rewrite <- (len_col xs), <- Exs, len_map; reflexivity).
      rewrite El; apply (fill_serie_n1 (fun i => scalar s (u32 (u32 (i * K) + c)))); [lia|].
      intros i x Ex.
      assert (E1 : nth_error (map (cut_row c 1) rows) i = Some [x]).
      { rewrite Exs; unfold col; rewrite nth_error_map, Ex; reflexivity. }
      destruct (Hin i [x] E1) as (r & Er & Ec & _).
      pose proof (unzip_read s K rows i r c 1 0 Hs Er Hc ltac:(lia) Hck) as U.
      rewrite Z.add_0_r, <- Ec in U; change (rd [x] 0) with (Ok x) in U; rewrite <- U.
      pose proof (u32_range (u32 (Z.of_nat i * K) + c)); rewrite (u32_small (u32 (u32 (Z.of_nat i * K) + c))) by lia; reflexivity.
    - rewrite <- (len_map (cut_row c k) rows).
      apply (fill_serie_n (fun i => mapO (fun j => scalar s (u32 (u32 (u32 (i * K) + c) + j))) (iota k))); auto.
      + lia.
      + rewrite len_map; exact Hl.
      + rewrite len_map; nia.
      + intros i r' E; destruct (Hin i r' E) as (r & Er & Ec & El).
        rewrite (mapO_ext _ (rd r')).
        * rewrite <- El; apply mapO_rd_iota.
        * intros j Hj; apply in_iota in Hj; rewrite Ec; apply (unzip_read s K rows i r c k j Hs Er); lia.
  Qed.

  Lemma cut_columns c k ks (rows : list (list T)) : 0 <= c -> 0 <= k ->
    columns (k :: ks) (map (skipn (Z.to_nat c)) rows)
    = map (cut_row c k) rows :: columns ks (map (skipn (Z.to_nat (c + k))) rows).
  Proof.
    intros Hc Hk; simpl; rewrite !map_map; do 2 f_equal; apply map_ext; intros r.
    rewrite skipn_skipn'; f_equal; lia.
  Qed.

  Definition as_series (sizes : list Z) (tables : list (list (list T))) : list (Serie T) :=
    map (fun p => mk (fst p) (snd p) 3) (combine sizes tables).

  Lemma unzip_ok (s : Serie T) K rows sizes :
    repr s K rows -> sizes <> [] -> Forall (fun k => 0 <= k) sizes -> sumZ sizes = K ->
    unzip s sizes = Ok (as_series sizes (columns sizes rows)).
  Proof.
    intros Hs Hne Hpos Hsum; unfold unzip.
    assert (HB : 0 <= K < 2147483648) by apply Hs.
    destruct sizes as [|k0 ks0]; [congruence|]; remember (k0 :: ks0) as sizes eqn:Esz; clear Hne Esz k0 ks0.
    fold (sumZ sizes); rewrite (repr_itemSize _ _ _ Hs), Hsum, u32_small, Z.eqb_refl by lia; cbn [negb].
    assert (G : forall todo c acc, Forall (fun k => 0 <= k) todo -> 0 <= c -> c + sumZ todo = K ->
      foldO (fun (st : list (Serie T) * Z) k =>
                              let* s := unzip_one s (snd st) k in
                              Ok (fst st ++ [s], u32 (snd st + k))) todo (acc, c)
      = Ok (acc ++ as_series todo (columns todo (map (skipn (Z.to_nat c)) rows)), K)).
    { induction todo as [|k todo IH]; intros c acc Hp Hc Hs2; simpl in Hs2.
      - cbn [foldO columns]; unfold as_series; simpl; rewrite app_nil_r; do 2 f_equal; lia.
      - inversion Hp as [|? ? Hk Hp']; subst x l; cbn [foldO fst snd].
        assert (0 <= sumZ todo).
        { clear -Hp'; induction Hp'; simpl; lia. }
        unfold sumZ in H; fold sumZ in H.
        rewrite (unzip_one_ok s K rows c k Hs) by (unfold sumZ in *; lia); cbn [obind].
        rewrite u32_small by (unfold sumZ in *; lia).
        rewrite IH by (auto; unfold sumZ in *; lia).
        rewrite cut_columns by lia; unfold as_series; simpl; rewrite <- app_assoc; reflexivity. }
    specialize (G sizes 0 [] Hpos ltac:(lia) ltac:(lia)).
    rewrite G; cbn [obind fst app]; do 2 f_equal.
    f_equal; rewrite <- (map_id rows) at 2; apply map_ext; reflexivity.
  Qed.

  Lemma columns_length sizes : forall rows : list (list T), length (columns sizes rows) = length sizes.
  Proof. induction sizes as [|k ks IH]; intros rows; simpl; [reflexivity|]; rewrite IH; reflexivity. Qed.

  (** cutting the zipped rows gives the tables back *)
  Lemma columns_zip (ss : list (Serie T)) kts n : reprs ss kts -> same_count (Z.of_nat n) kts ->
    columns (map fst kts) (map (@concat T) (tuples n (map snd kts))) = map snd kts.
  Proof.
    intros Hr Hc; induction Hr as [|s [k t] ss kts Hs Hr IH]; [reflexivity|].
    inversion Hc as [|? ? Hl Hc']; subst x l; cbn [map fst snd columns].
    simpl in Hs, Hl.
    assert (Hw : forall i, (i < n)%nat -> length (nth i t []) = Z.to_nat k).
    { intros i Hi; destruct (nth_error t i) as [v|] eqn:E; [|apply nth_error_None in E; unfold len in Hl; lia].
      rewrite (nth_error_nth _ _ _ E).
      pose proof (rows_nth k t i v (repr_rows _ _ _ Hs) E) as L; unfold len in L; lia. }
    f_equal.
    - unfold tuples; rewrite !map_map.
      transitivity (map (fun i => nth i t []) (seq 0 n)).
      + apply map_ext_in; intros i Hi; apply in_seq in Hi; unfold across; cbn [map concat].
        rewrite <- (Hw i) by lia; rewrite firstn_app, firstn_all, Nat.sub_diag; simpl; apply app_nil_r.
      + apply nth_error_ext; intros i; rewrite nth_error_map.
        destruct (Nat.lt_ge_cases i n) as [Hi|Hi].
        * rewrite (nth_error_nth' _ 0%nat) by (rewrite seq_length; exact Hi); rewrite seq_nth by exact Hi; simpl.
          symmetry; apply nth_error_nth'; unfold len in Hl; lia.
        * rewrite (proj2 (nth_error_None (seq 0 n) i)) by (rewrite seq_length; lia); simpl.
          symmetry; apply nth_error_None; unfold len in Hl; lia.
    - etransitivity; [|exact (IH Hc')]; f_equal; unfold tuples; rewrite !map_map; apply map_ext_in; intros i Hi; apply in_seq in Hi.
      unfold across; cbn [map concat]; rewrite <- (Hw i) by lia.
      rewrite skipn_app, skipn_all, Nat.sub_diag; reflexivity.
  Qed.

  (** gluing the columns together gives the rows back *)
  Lemma columns_rows sizes : forall rows : list (list T),
    Forall (fun k => 0 <= k) sizes -> rows_of_size (sumZ sizes) rows ->
    map (@concat T) (tuples (length rows) (columns sizes rows)) = rows.
  Proof.
    induction sizes as [|k ks IH]; intros rows Hp Hr; simpl in *.
    - apply nth_error_ext; intros i; unfold tuples; rewrite !nth_error_map.
      destruct (Nat.lt_ge_cases i (length rows)) as [Hi|Hi].
      + rewrite (nth_error_nth' _ 0%nat) by (rewrite seq_length; exact Hi); simpl.
        destruct (nth_error rows i) as [r|] eqn:E; [|apply nth_error_None in E; lia].
        pose proof (rows_nth 0 rows i r Hr E) as L; rewrite (len_0 _ L); reflexivity.
      + rewrite (proj2 (nth_error_None (seq 0 (length rows)) i)) by (rewrite seq_length; lia); simpl.
        symmetry; apply nth_error_None; lia.
    - inversion Hp as [|? ? Hk Hp']; subst.
      assert (Hs : 0 <= sumZ ks) by (clear -Hp'; induction Hp'; simpl; lia).
      assert (Hr' : rows_of_size (sumZ ks) (map (skipn (Z.to_nat k)) rows)).
      { apply Forall_map; eapply Forall_impl; [|exact Hr]; intros r L; unfold len, sumZ in *; rewrite skipn_length; lia. }
      specialize (IH _ Hp' Hr'); rewrite map_length in IH.
      apply nth_error_ext; intros i.
      assert (Ei : nth_error (map (@concat T) (tuples (length rows) (columns ks (map (skipn (Z.to_nat k)) rows)))) i
                   = nth_error (map (skipn (Z.to_nat k)) rows) i) by (rewrite IH; reflexivity).
      unfold tuples in *; rewrite !nth_error_map in *.
      destruct (Nat.lt_ge_cases i (length rows)) as [Hi|Hi].
      + rewrite (nth_error_nth' _ 0%nat) in * by (rewrite seq_length; exact Hi); rewrite seq_nth in * by exact Hi; simpl in *.
        destruct (nth_error rows i) as [r|] eqn:E; [|apply nth_error_None in E; lia].
        simpl in *; injection Ei as Ei; rewrite Ei; f_equal.
        replace (nth i (map (firstn (Z.to_nat k)) rows) []) with (firstn (Z.to_nat k) r); [apply firstn_skipn|].
        symmetry; apply nth_error_nth; rewrite nth_error_map, E; reflexivity.
      + rewrite (proj2 (nth_error_None (seq 0 (length rows)) i)) by (rewrite seq_length; lia); simpl.
        symmetry; apply nth_error_None; lia.
  Qed.

  Lemma columns_reprs sizes : forall rows : list (list T), Forall (fun k => 0 <= k) sizes ->
    rows_of_size (sumZ sizes) rows -> sumZ sizes < 2147483648 -> len rows < 4294967296 ->
    sumZ sizes * len rows < 4294967296 ->
    reprs (as_series sizes (columns sizes rows)) (combine sizes (columns sizes rows)) /\
    same_count (len rows) (combine sizes (columns sizes rows)).
  Proof.
    induction sizes as [|k ks IH]; intros rows Hp Hr HK Hl Hm; [split; constructor|].
    inversion Hp as [|? ? Hk Hp']; subst x l; simpl in Hr, HK, Hm; fold (sumZ ks) in *.
    assert (Hs : 0 <= sumZ ks) by (clear -Hp'; induction Hp'; simpl; lia).
    pose proof (len_nonneg rows).
    assert (Hr' : rows_of_size (sumZ ks) (map (skipn (Z.to_nat k)) rows)).
    { apply Forall_map; eapply Forall_impl; [|exact Hr]; intros r L; unfold len in *; rewrite skipn_length; lia. }
    destruct (IH _ Hp' Hr') as [A B]; try rewrite len_map; try lia; try nia.
    rewrite len_map in B; unfold as_series in *; simpl; split; constructor; auto.
    - cbn [fst snd]; apply repr_mk; rewrite ?len_map; try lia; try nia.
      apply Forall_map; eapply Forall_impl; [|exact Hr]; intros r L; unfold len in *; rewrite firstn_length; lia.
    - simpl; apply len_map.
  Qed.
  Lemma combine_fst {A B} (a : list A) (b : list B) : length a = length b -> map fst (combine a b) = a.
  Proof. revert b; induction a as [|x a IH]; intros [|y b] E; simpl in *; try discriminate; [reflexivity|rewrite IH by lia; reflexivity]. Qed.
  Lemma combine_snd {A B} (a : list A) (b : list B) : length a = length b -> map snd (combine a b) = b.
  Proof. revert b; induction a as [|x a IH]; intros [|y b] E; simpl in *; try discriminate; [reflexivity|rewrite IH by lia; reflexivity]. Qed.
End Unzip.

(** what unzip returns: [as_series sizes tables] are the Series of the given item sizes holding the tables *)
Theorem C37_unzip :
  forall (T : Type) (NT : Num T) (s : Serie T) K rows sizes,
  repr s K rows -> sizes <> [] -> Forall (fun k => 1 <= k) sizes -> sumZ sizes = K ->
  unzip s sizes = Ok (as_series sizes (columns sizes rows)).
Proof.
  intros T NT s K rows sizes Hs Hne Hp Hsum; apply (unzip_ok s K rows); auto.
  eapply Forall_impl; [|exact Hp]; simpl; lia.
Qed.
Print Assumptions C37_unzip.

(** ** C36 *)
Theorem C36_unzip_zip :
  forall (T : Type) (NT : Num T) (ss : list (Serie T)) kts n,
  ss <> [] -> reprs ss kts -> same_count n kts -> Forall (fun kt => 1 <= fst kt) kts ->
  sumZ (map fst kts) < 2 ^ 31 -> sumZ (map fst kts) * n < 2 ^ 32 ->
  exists z, zip_series ss = Ok z /\
    unzip z (map fst kts) = Ok (map (fun kt => mk (fst kt) (snd kt) 3) kts).
Proof.
  intros T NT ss kts n Hne Hr Hc Hv HK Hm.
  assert (Hn : 0 <= n < 4294967296).
  { destruct Hr as [|s0 [k t] ss kts Hs Hr]; [congruence|]; inversion Hc as [|? ? Hl Hc']; subst; simpl in *.
    pose proof (len_nonneg t); assert (len t < 4294967296) by apply Hs; lia. }
  eexists; split; [apply (C35_zip T NT ss kts n); auto|].
  assert (Hp : 0 <= sumZ (map fst kts)) by (eapply sumZ_nonneg; exact Hr).
  assert (Hc' : same_count (Z.of_nat (Z.to_nat n)) kts) by (rewrite Z2Nat.id by lia; exact Hc).
  rewrite (unzip_ok _ (sumZ (map fst kts)) (map (@concat T) (tuples (Z.to_nat n) (map snd kts)))); auto.
  - f_equal; unfold as_series; rewrite (columns_zip ss kts (Z.to_nat n) Hr Hc').
    clear; induction kts as [|[k t] kts IH]; [reflexivity|]; simpl; rewrite IH; reflexivity.
  - apply repr_mk; try lia.
    + apply Forall_map, Forall_map, Forall_forall; intros i Hi; apply in_seq in Hi.
      apply (across_width ss kts (Z.to_nat n) i Hr Hc'); lia.
    + rewrite len_map, tuples_len_Z; lia.
    + rewrite len_map, tuples_len_Z; lia.
  - intros E; apply map_eq_nil in E; subst; inversion Hr; congruence.
  - apply Forall_map; eapply Forall_impl; [|exact Hv]; simpl; lia.
Qed.
Print Assumptions C36_unzip_zip.

Example C36_witness :
  unzip (mk 3 [[#1; #3; #4]; [#2; #5; #6]] 3) [1; 2]
  = Ok [mk 1 (col [#1; #2]) 3; mk 2 [[#3; #4]; [#5; #6]] 3].
Proof. reflexivity. Qed.

(** ** C37 *)
Theorem C37_zip_unzip :
  forall (T : Type) (NT : Num T) (s : Serie T) K rows sizes,
  repr s K rows -> sizes <> [] -> Forall (fun k => 1 <= k) sizes -> sumZ sizes = K ->
  exists parts, unzip s sizes = Ok parts /\ zipVector parts = Ok (mk K rows 3).
Proof.
  intros T NT s K rows sizes Hs Hne Hp Hsum.
  assert (Hp0 : Forall (fun k => 0 <= k) sizes) by (eapply Forall_impl; [|exact Hp]; simpl; lia).
  exists (as_series sizes (columns sizes rows)); split; [apply (C37_unzip T NT s K rows); auto|].
  assert (HB : 0 <= K < 2147483648) by apply Hs.
  assert (Hm : K * len rows < 4294967296) by apply Hs.
  assert (Hl : len rows < 4294967296) by apply Hs.
  assert (Hr : rows_of_size (sumZ sizes) rows) by (rewrite Hsum; apply Hs).
  destruct (columns_reprs sizes rows Hp0 Hr ltac:(lia) Hl ltac:(lia)) as [A B].
  assert (El : length sizes = length (columns sizes rows)) by (rewrite columns_length; reflexivity).
  assert (Hv : Forall (fun kt => 1 <= fst kt) (combine sizes (columns sizes rows))).
  { clear -Hp El; revert El; generalize (columns sizes rows); induction Hp as [|k ks Hk Hp IH]; intros [|t ts] E;
      simpl; try discriminate; constructor; auto. }
  destruct (C35_zip T NT (as_series sizes (columns sizes rows)) _ (len rows)
              ltac:(unfold as_series; destruct sizes; [congruence|simpl; discriminate]) A B Hv) as [_ E];
    rewrite ?(combine_fst _ _ El); try lia.
  rewrite (combine_fst _ _ El), (combine_snd _ _ El), len_length, columns_rows, Hsum in E by auto; exact E.
Qed.
Print Assumptions C37_zip_unzip.

Theorem C37_unzip_refused :
  forall (T : Type) (NT : Num T) (s : Serie T) sizes,
  sizes = [] \/ (0 <= sumZ sizes < 2 ^ 32 /\ sumZ sizes <> itemSize s) ->
  unzip s sizes = Throw InvalidArgument.
Proof.
  intros T NT s sizes H; unfold unzip; destruct sizes as [|k ks]; [reflexivity|].
  destruct H as [H|[H1 H2]]; [discriminate|].
  fold (sumZ (k :: ks)); rewrite u32_small by lia.
  destruct (Z.eqb_spec (sumZ (k :: ks)) (itemSize s)); [congruence|reflexivity].
Qed.
Print Assumptions C37_unzip_refused.

Example C37_witness :
  let z := mk 3 [[#1; #3; #4]; [#2; #5; #6]] 3 in
  repr z 3 [[#1; #3; #4]; [#2; #5; #6]] /\ sumZ [2; 1] = 3 /\
  unzip z [2; 1] = Ok [mk 2 [[#1; #3]; [#2; #5]] 3; mk 1 (col [#4; #6]) 3] /\
  unzip z [2; 2] = Throw InvalidArgument.
Proof. split; [repr_ex|]; split; [reflexivity|]; split; reflexivity. Qed.

(** ** C38: the sum of the sizes is taken modulo 2^32 *)
Theorem C38_unzip_total_partial :
  forall (T : Type) (NT : Num T) (s : Serie T) sizes,
  sizes <> [] -> Forall (fun k => 0 <= k < 2 ^ 32) sizes -> sumZ sizes < 2 ^ 32 -> sumZ sizes <> itemSize s ->
  unzip s sizes = Throw InvalidArgument.
Proof.
  intros T NT s sizes Hne Hp Hlt Hd; apply C37_unzip_refused; right; split; [|exact Hd].
  split; [|exact Hlt]; clear -Hp; induction Hp; simpl; lia.
Qed.
Print Assumptions C38_unzip_total_partial.

Theorem C38_unzip_total_refuted :
  exists (s : Serie F64) sizes, repr s 1 [] /\ Forall (fun k => 1 <= k < 2 ^ 32) sizes /\
    sumZ sizes <> itemSize s /\ exists parts, unzip s sizes = Ok parts.
Proof.
  exists (mk 1 [] 3), [2 ^ 31; 2 ^ 31; 1]; split; [repr_ex|]; split; [repeat constructor; lia|].
  split; [discriminate|]; eexists; reflexivity.
Qed.
Print Assumptions C38_unzip_total_refuted.
