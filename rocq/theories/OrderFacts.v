(** * Strict weak orders, sorting, and the order of doubles. *)
From Verif Require Import Base Num Serie Spec BaseFacts Utils F64.
From Coq Require Import Permutation Sorted Reals Lra.
Open Scope Z_scope.
From Flocq Require Import Core IEEE754.BinarySingleNaN.

(** ** Conforming sorting algorithms *)
(** no element is followed by a smaller one, at any distance *)
Definition sorted_by {A} (lt : A -> A -> bool) : list A -> Prop := StronglySorted (fun x y => lt y x = false).
(** what [alg.sort] promises of [std::sort]: a permutation, sorted, provided the order is a strict weak one *)
Definition conforms (sorter : Sorter) : Prop :=
  forall A (lt : A -> A -> bool) l, swo_on lt l = true -> Permutation l (sorter A lt l) /\ sorted_by lt (sorter A lt l).

Section Swo.
  Context {A : Type} (lt : A -> A -> bool).

  Definition irrefl_on (l : list A) := forall x, In x l -> lt x x = false.
  Definition trans_on (l : list A) := forall x y z, In x l -> In y l -> In z l -> lt x y = true -> lt y z = true -> lt x z = true.
  Definition incomp_on (l : list A) := forall x y z, In x l -> In y l -> In z l ->
    lt x y = false -> lt y x = false -> lt y z = false -> lt z y = false -> lt x z = false /\ lt z x = false.

  Lemma swo_on_spec l : swo_on lt l = true <-> irrefl_on l /\ trans_on l /\ incomp_on l.
  Proof.
    unfold swo_on; rewrite andb_true_iff, !forallb_forall; split.
    - intros [Hi Ht]; split; [|split].
      + intros x Hx; apply negb_true_iff, Hi, Hx.
      + intros x y z Hx Hy Hz H1 H2.
        specialize (Ht x Hx); rewrite forallb_forall in Ht; specialize (Ht y Hy).
        rewrite forallb_forall in Ht; specialize (Ht z Hz); apply andb_prop in Ht; destruct Ht as [Ht _].
        unfold implb3 in Ht; rewrite H1, H2 in Ht; exact Ht.
      + intros x y z Hx Hy Hz H1 H2 H3 H4.
        specialize (Ht x Hx); rewrite forallb_forall in Ht; specialize (Ht y Hy).
        rewrite forallb_forall in Ht; specialize (Ht z Hz); apply andb_prop in Ht; destruct Ht as [_ Ht].
        unfold implb3, incomparable in Ht; rewrite H1, H2, H3, H4 in Ht; simpl in Ht.
        apply andb_prop in Ht; destruct Ht as [Ha Hb]; apply negb_true_iff in Ha, Hb; auto.
    - intros (Hi & Ht & Hc); split.
      + intros x Hx; rewrite (Hi x Hx); reflexivity.
      + intros x Hx; apply forallb_forall; intros y Hy; apply forallb_forall; intros z Hz.
        apply andb_true_intro; split; unfold implb3, incomparable.
        * destruct (lt x y) eqn:E1, (lt y z) eqn:E2; simpl; auto; eapply Ht with (y := y); eauto.
        * destruct (lt x y) eqn:E1, (lt y x) eqn:E2, (lt y z) eqn:E3, (lt z y) eqn:E4; simpl; auto.
          destruct (Hc x y z Hx Hy Hz E1 E2 E3 E4) as [-> ->]; reflexivity.
  Qed.

  Lemma swo_incl l l' : (forall x, In x l' -> In x l) -> swo_on lt l = true -> swo_on lt l' = true.
  Proof.
    intros Hin H; apply swo_on_spec in H; destruct H as (Hi & Ht & Hc); apply swo_on_spec; split; [|split].
    - intros x Hx; auto.
    - intros x y z Hx Hy Hz; apply Ht; auto.
    - intros x y z Hx Hy Hz; apply Hc; auto.
  Qed.
  Lemma swo_perm l l' : Permutation l l' -> swo_on lt l = true -> swo_on lt l' = true.
  Proof. intros P; apply swo_incl; intros x Hx; eapply Permutation_in; [symmetry; exact P|exact Hx]. Qed.

  (* "not greater" is transitive *)
  Lemma swo_le_trans l x y z : swo_on lt l = true -> In x l -> In y l -> In z l ->
    lt y x = false -> lt z y = false -> lt z x = false.
  Proof.
    intros H Hx Hy Hz H1 H2; apply swo_on_spec in H; destruct H as (Hi & Ht & Hc).
    destruct (lt z x) eqn:E; [|reflexivity].
    destruct (lt x y) eqn:E1; [rewrite (Ht z x y) in H2; auto|].
    destruct (lt y z) eqn:E2; [rewrite (Ht y z x) in H1; auto|].
    destruct (Hc x y z) as [_ E3]; auto; congruence.
  Qed.

  (** two sorted arrangements of the same elements agree up to incomparable elements *)
  Lemma sorted_unique l l' : swo_on lt l = true -> Permutation l l' -> sorted_by lt l -> sorted_by lt l' ->
    Forall2 (fun x y => lt x y = false /\ lt y x = false) l l'.
  Proof.
    (* count the elements not greater than a pivot *)
    assert (Cnt : forall l x, sorted_by lt l -> swo_on lt (x :: l) = true ->
              forall i y, nth_error l i = Some y ->
              (lt x y = true -> (length (filter (fun z => negb (lt x z)) l) <= i)%nat) /\
              (lt x y = false -> (i < length (filter (fun z => negb (lt x z)) l))%nat)).
    { clear; induction l as [|a l IH]; intros x Hs Hw i y Hi; [destruct i; discriminate|].
      inversion Hs as [|? ? Hs' Hall]; subst.
      assert (Hw' : swo_on lt (x :: l) = true) by (eapply swo_incl; [|exact Hw]; intros z [->|Hz]; simpl; auto).
      destruct i as [|i]; simpl in Hi.
      - injection Hi as <-; simpl; split; intros E; rewrite E; simpl; [|lia].
        replace (filter (fun z => negb (lt x z)) l) with (@nil A); [simpl; lia|].
        symmetry; clear -Hall E Hw; induction l as [|b l IHl]; [reflexivity|]; simpl.
        inversion Hall; subst.
        assert (lt x b = true).
        { destruct (lt x b) eqn:Eb; [reflexivity|exfalso].
          pose proof (swo_le_trans _ a b x Hw) as G; rewrite G in E; simpl; auto; discriminate. }
        rewrite H; simpl; apply IHl; auto.
        eapply swo_incl; [|exact Hw]; intros z [->|[->|Hz]]; simpl; auto.
      - destruct (IH x Hs' Hw' i y Hi) as [I1 I2]; simpl.
        destruct (lt x a) eqn:Ea; simpl.
        + split; intros E; [specialize (I1 E); lia|exfalso].
          rewrite Forall_forall in Hall; specialize (Hall y (nth_error_In _ _ Hi)).
          pose proof (swo_le_trans _ a y x Hw) as G; rewrite G in Ea; simpl; auto; [discriminate|].
          right; right; eapply nth_error_In; exact Hi.
        + split; intros E; [specialize (I1 E)|specialize (I2 E)]; lia. }
    intros Hw P Hs Hs'.
    assert (Hc : forall x, length (filter (fun z => negb (lt x z)) l) = length (filter (fun z => negb (lt x z)) l')).
    { intros x; clear -P; induction P; simpl; auto.
      - destruct (negb (lt x x0)); simpl; auto.
      - destruct (negb (lt x x0)), (negb (lt x y)); simpl; auto.
      - congruence. }
    assert (Hin : forall x, In x l <-> In x l') by (intros x; split; apply Permutation_in; auto; symmetry; auto).
    assert (Hwx : forall x, In x l -> swo_on lt (x :: l) = true /\ swo_on lt (x :: l') = true).
    { intros x Hx; split; eapply swo_incl; try exact Hw; intros z [->|Hz]; auto; apply Hin; auto. }
    assert (El : length l = length l') by (apply Permutation_length; exact P).
    assert (Hp : forall i x y, nth_error l i = Some x -> nth_error l' i = Some y -> lt x y = false /\ lt y x = false).
    { intros i x y Hx Hy.
      pose proof (nth_error_In _ _ Hx) as Ix; pose proof (proj2 (Hin y) (nth_error_In _ _ Hy)) as Iy.
      assert (Hirr : forall z, In z l -> lt z z = false) by (apply swo_on_spec in Hw; apply Hw).
      split.
      - destruct (lt x y) eqn:E; [exfalso|reflexivity].
        destruct (Hwx x Ix) as [W1 W2].
        pose proof (proj1 (Cnt l' x Hs' W2 i y Hy) E) as C1.
        pose proof (proj2 (Cnt l x Hs W1 i x Hx) (Hirr x Ix)) as C2; rewrite Hc in C2; lia.
      - destruct (lt y x) eqn:E; [exfalso|reflexivity].
        destruct (Hwx y Iy) as [W1 W2].
        pose proof (proj1 (Cnt l y Hs W1 i x Hx) E) as C1.
        pose proof (proj2 (Cnt l' y Hs' W2 i y Hy) (Hirr y Iy)) as C2; rewrite <- Hc in C2; lia. }
    clear -Hp El; revert l' Hp El; induction l as [|x l IH]; intros [|y l'] Hp El; try discriminate; constructor.
    - apply (Hp 0%nat); reflexivity.
    - apply IH; [intros i; apply (Hp (S i))|simpl in El; lia].
  Qed.

  (** insertion sort conforms *)
  Fixpoint insert (x : A) (l : list A) : list A :=
    match l with
    | [] => [x]
    | y :: r => if lt x y then x :: y :: r else y :: insert x r
    end.
  Definition isort (l : list A) : list A := fold_right insert [] l.
  Lemma insert_perm x l : Permutation (x :: l) (insert x l).
  Proof.
    induction l as [|y l IH]; simpl; [reflexivity|]; destruct (lt x y); [reflexivity|].
    rewrite perm_swap; apply perm_skip; exact IH.
  Qed.
  Lemma isort_perm l : Permutation l (isort l).
  Proof. induction l as [|x l IH]; simpl; [constructor|]; rewrite <- insert_perm; apply perm_skip; exact IH. Qed.
  Lemma insert_sorted x l : swo_on lt (x :: l) = true -> sorted_by lt l -> sorted_by lt (insert x l).
  Proof.
    intros Hw Hs; induction Hs as [|y l Hs IH Hall]; simpl; [repeat constructor|].
    destruct (lt x y) eqn:E.
    - constructor; [constructor; assumption|].
      assert (Eyx : lt y x = false).
      { destruct (lt y x) eqn:E2; [|reflexivity]; apply swo_on_spec in Hw; destruct Hw as (Hi & Ht & _).
        rewrite <- (Hi x (or_introl eq_refl)); symmetry; apply (Ht x y x); simpl; auto. }
      constructor; [exact Eyx|].
      apply Forall_forall; intros z Hz; rewrite Forall_forall in Hall.
      eapply (swo_le_trans _ x y z Hw); simpl; auto.
    - assert (Hw' : swo_on lt (x :: l) = true) by (eapply swo_incl; [|exact Hw]; intros z [->|Hz]; simpl; auto).
      constructor; [apply IH; exact Hw'|].
      apply Forall_forall; intros z Hz; eapply Permutation_in in Hz; [|symmetry; apply insert_perm].
      rewrite Forall_forall in Hall; destruct Hz as [<-|Hz]; [exact E|apply Hall; exact Hz].
  Qed.
  Lemma isort_sorted l : swo_on lt l = true -> sorted_by lt (isort l).
  Proof.
    induction l as [|x l IH]; intros Hw; simpl; [constructor|].
    apply insert_sorted.
    - eapply swo_incl; [|exact Hw]; intros z [->|Hz]; [left; reflexivity|right].
      eapply Permutation_in; [symmetry; apply isort_perm|exact Hz].
    - apply IH; eapply swo_incl; [|exact Hw]; intros z Hz; right; exact Hz.
  Qed.
End Swo.

Definition insertion_sorter : Sorter := fun A lt l => isort lt l.
Lemma insertion_sorter_conforms : conforms insertion_sorter.
Proof. intros A lt l Hw; split; [apply isort_perm|apply isort_sorted; exact Hw]. Qed.

(** ** The order of doubles other than NaN is that of the extended reals *)
Definition not_nan (x : F64) : Prop := is_nan x = false.
(** the infinities stand beyond all finite doubles *)
Definition ext (x : F64) : R :=
  match x with
  | B754_infinity false => bpow radix2 1024
  | B754_infinity true => - bpow radix2 1024
  | _ => B2R x
  end.

Lemma ext_finite (x : F64) : is_finite x = true -> ext x = B2R x.
Proof. destruct x; simpl; try discriminate; reflexivity. Qed.
Lemma ext_bound (x : F64) : is_finite x = true -> (- bpow radix2 1024 < ext x < bpow radix2 1024)%R.
Proof.
  intros Hf; rewrite (ext_finite x Hf); pose proof (abs_B2R_lt_emax 53 1024 x) as H.
  apply Rabs_def2 in H; lra.
Qed.

Lemma Bcompare_ext x y : not_nan x -> not_nan y -> Bcompare x y = Some (Rcompare (ext x) (ext y)).
Proof.
  intros Hx Hy.
  destruct (is_finite x) eqn:Fx, (is_finite y) eqn:Fy.
  - rewrite (Bcompare_correct 53 1024 x y Fx Fy), (ext_finite x Fx), (ext_finite y Fy); reflexivity.
  - pose proof (ext_bound x Fx) as B; destruct y as [s| [] | |s m e p]; try discriminate.
    + rewrite (Rcompare_Gt _ (ext (B754_infinity true))) by (cbn [ext]; lra).
      destruct x as [s| | |s m e p]; try discriminate; reflexivity.
    + rewrite (Rcompare_Lt _ (ext (B754_infinity false))) by (cbn [ext]; lra).
      destruct x as [s| | |s m e p]; try discriminate; reflexivity.
  - pose proof (ext_bound y Fy) as B; destruct x as [s| [] | |s m e p]; try discriminate.
    + rewrite (Rcompare_Lt (ext (B754_infinity true))) by (cbn [ext]; lra).
      destruct y as [s| | |s m e p]; try discriminate; reflexivity.
    + rewrite (Rcompare_Gt (ext (B754_infinity false))) by (cbn [ext]; lra).
      destruct y as [s| | |s m e p]; try discriminate; reflexivity.
  - assert (P : (0 < bpow radix2 1024)%R) by apply bpow_gt_0.
    destruct x as [s| [] | |s m e p], y as [s'| [] | |s' m' e' p']; try discriminate; cbn [ext].
    + rewrite Rcompare_Eq by reflexivity; reflexivity.
    + rewrite Rcompare_Lt by lra; reflexivity.
    + rewrite Rcompare_Gt by lra; reflexivity.
    + rewrite Rcompare_Eq by reflexivity; reflexivity.
Qed.
Lemma Bltb_ext x y : not_nan x -> not_nan y -> (Bltb x y = true <-> (ext x < ext y)%R).
Proof.
  intros Hx Hy; unfold Bltb, SpecFloat.SFltb; change (SpecFloat.SFcompare (B2SF x) (B2SF y)) with (Bcompare x y).
  rewrite (Bcompare_ext x y Hx Hy); destruct (Rcompare_spec (ext x) (ext y)); split; intros; try discriminate; try lra; reflexivity.
Qed.
Lemma Bleb_ext x y : not_nan x -> not_nan y -> (Bleb x y = true <-> (ext x <= ext y)%R).
Proof.
  intros Hx Hy; unfold Bleb, SpecFloat.SFleb; change (SpecFloat.SFcompare (B2SF x) (B2SF y)) with (Bcompare x y).
  rewrite (Bcompare_ext x y Hx Hy); destruct (Rcompare_spec (ext x) (ext y)); split; intros; try discriminate; try lra; reflexivity.
Qed.
Lemma Beqb_ext x y : not_nan x -> not_nan y -> (Beqb x y = true <-> ext x = ext y).
Proof.
  intros Hx Hy; unfold Beqb, SpecFloat.SFeqb; change (SpecFloat.SFcompare (B2SF x) (B2SF y)) with (Bcompare x y).
  rewrite (Bcompare_ext x y Hx Hy); destruct (Rcompare_spec (ext x) (ext y)); split; intros; try discriminate; try lra; reflexivity.
Qed.
Lemma B_nan_cmp (x y : F64) : is_nan x = true \/ is_nan y = true -> Bltb x y = false /\ Bleb x y = false /\ Beqb x y = false.
Proof.
  intros [H|H]; [destruct x as [s|s| |s m e p]; try discriminate; destruct y; auto|].
  destruct y as [s|s| |s m e p]; try discriminate; destruct x as [[]|[]| |[]]; auto.
Qed.

(** Num instances whose comparisons follow a real key on some elements *)
Definition ordered_by {T} {NT : Num T} (good : T -> Prop) (key : T -> R) : Prop :=
  forall x y, good x -> good y ->
    (n_ltb x y = true <-> (key x < key y)%R) /\ (n_leb x y = true <-> (key x <= key y)%R) /\
    (n_eqb x y = true <-> key x = key y).

Lemma f64_ordered L : @ordered_by F64 (f64_num L) not_nan ext.
Proof.
  intros x y Hx Hy; split; [apply Bltb_ext; assumption|split; [apply Bleb_ext; assumption|apply Beqb_ext; assumption]].
Qed.

Section Keyed.
  Context {T : Type} {NT : Num T} (good : T -> Prop) (key : T -> R) (Hord : ordered_by good key).

  Lemma keyed_ltb x y : good x -> good y -> n_ltb x y = if Rlt_dec (key x) (key y) then true else false.
  Proof.
    intros Hx Hy; destruct (Hord x y Hx Hy) as (E & _ & _).
    destruct (Rlt_dec (key x) (key y)); [apply E; assumption|].
    destruct (n_ltb x y); [exfalso; apply n, E; reflexivity|reflexivity].
  Qed.
  Lemma keyed_leb x y : good x -> good y -> n_leb x y = if Rle_dec (key x) (key y) then true else false.
  Proof.
    intros Hx Hy; destruct (Hord x y Hx Hy) as (_ & E & _).
    destruct (Rle_dec (key x) (key y)); [apply E; assumption|].
    destruct (n_leb x y); [exfalso; apply n, E; reflexivity|reflexivity].
  Qed.
  Lemma keyed_eqb x y : good x -> good y -> n_eqb x y = if Req_EM_T (key x) (key y) then true else false.
  Proof.
    intros Hx Hy; destruct (Hord x y Hx Hy) as (_ & _ & E).
    destruct (Req_EM_T (key x) (key y)); [apply E; assumption|].
    destruct (n_eqb x y); [exfalso; apply n, E; reflexivity|reflexivity].
  Qed.

  Lemma keyed_swo l : Forall good l -> swo_on n_ltb l = true.
  Proof.
    intros Hg; rewrite Forall_forall in Hg; apply swo_on_spec; split; [|split].
    - intros x Hx; rewrite keyed_ltb by auto; destruct (Rlt_dec (key x) (key x)); [lra|reflexivity].
    - intros x y z Hx Hy Hz; rewrite !keyed_ltb by auto.
      destruct (Rlt_dec (key x) (key y)), (Rlt_dec (key y) (key z)), (Rlt_dec (key x) (key z)); intros; try discriminate; try lra; reflexivity.
    - intros x y z Hx Hy Hz; rewrite !keyed_ltb by auto.
      destruct (Rlt_dec (key x) (key y)), (Rlt_dec (key y) (key x)), (Rlt_dec (key y) (key z)), (Rlt_dec (key z) (key y)),
        (Rlt_dec (key x) (key z)), (Rlt_dec (key z) (key x)); intros; try discriminate; try lra; auto.
  Qed.

  (** lexicographic order of arrays *)
  Inductive lexR : list R -> list R -> Prop :=
  | lex_here : forall x y a b, (x < y)%R -> lexR (x :: a) (y :: b)
  | lex_later : forall x a b, lexR a b -> lexR (x :: a) (x :: b).

  Lemma lexR_irrefl a : ~ lexR a a.
  Proof. induction a as [|x a IH]; intros H; inversion H; subst; [lra|apply IH; assumption]. Qed.
  Lemma lexR_trans a : forall b c, lexR a b -> lexR b c -> lexR a c.
  Proof.
    induction a as [|x a IH]; intros b c H1 H2; [inversion H1|].
    inversion H1; subst; inversion H2; subst.
    - apply lex_here; lra.
    - apply lex_here; assumption.
    - apply lex_here; assumption.
    - apply lex_later; eapply IH; eassumption.
  Qed.
  Lemma lexR_total a : forall b, length a = length b -> lexR a b \/ a = b \/ lexR b a.
  Proof.
    induction a as [|x a IH]; intros [|y b] E; try discriminate; [auto|].
    destruct (Rtotal_order x y) as [H|[->|H]]; [left; apply lex_here; exact H| |right; right; apply lex_here; lra].
    destruct (IH b) as [H|[->|H]]; [simpl in E; lia|left; apply lex_later; exact H|auto|right; right; apply lex_later; exact H].
  Qed.

  Lemma lex_lt_lexR a : forall b, Forall good a -> Forall good b -> length a = length b ->
    (lex_lt a b = true <-> lexR (map key a) (map key b)).
  Proof.
    induction a as [|x a IH]; intros [|y b] Ha Hb E; try discriminate.
    - simpl; split; intros H; [discriminate|inversion H].
    - inversion Ha; inversion Hb; subst; simpl.
      rewrite keyed_eqb, keyed_ltb by assumption.
      destruct (Req_EM_T (key x) (key y)) as [e|e]; simpl.
      + rewrite IH by (auto; simpl in E; lia); split; intros H.
        * rewrite e; apply lex_later; exact H.
        * inversion H; subst; [lra|assumption].
      + destruct (Rlt_dec (key x) (key y)) as [l|l]; split; intros H; auto; try discriminate.
        * apply lex_here; exact l.
        * inversion H; subst; [lra|congruence].
  Qed.

  Lemma lex_swo k rows : rows_of_size k rows -> Forall (Forall good) rows -> swo_on lex_lt rows = true.
  Proof.
    intros Hk Hg; unfold rows_of_size in Hk; rewrite Forall_forall in Hk, Hg.
    assert (El : forall x y, In x rows -> In y rows -> length x = length y).
    { intros x y Hx Hy; pose proof (Hk x Hx); pose proof (Hk y Hy); unfold len in *; lia. }
    assert (Em : forall x y, In x rows -> In y rows -> length (map key x) = length (map key y)).
    { intros; rewrite !map_length; auto. }
    assert (EF : forall x y, In x rows -> In y rows -> (lex_lt x y = false <-> ~ lexR (map key x) (map key y))).
    { intros x y Hx Hy; rewrite <- lex_lt_lexR by auto; destruct (lex_lt x y); split; intros; congruence. }
    apply swo_on_spec; split; [|split].
    - intros x Hx; apply EF; auto; apply lexR_irrefl.
    - intros x y z Hx Hy Hz; rewrite !lex_lt_lexR by auto; apply lexR_trans.
    - intros x y z Hx Hy Hz; rewrite !EF by auto; intros H1 H2 H3 H4.
      destruct (lexR_total (map key x) (map key y) (Em x y Hx Hy)) as [?|[E1|?]]; try contradiction.
      destruct (lexR_total (map key y) (map key z) (Em y z Hy Hz)) as [?|[E2|?]]; try contradiction.
      rewrite E1, E2; split; apply lexR_irrefl.
  Qed.
End Keyed.
