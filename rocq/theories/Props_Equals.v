(** * C66, C67, C101: equals, approximatelyEquals, equality masks. *)
From Verif Require Import Base Num Serie Spec BaseFacts SerieFacts Functional FunctionalFacts Mathf MathFacts Utils.
From Verif Require Import F64 F64Facts F64Arith OrderFacts MinMaxFacts Props_Functional.
From Flocq Require Import Core IEEE754.BinarySingleNaN.
From Coq Require Import Reals Lra.
Open Scope Z_scope.
#[local] Existing Instance F64N.
Opaque f64_of_Z.

Lemma Beqb_sym (x y : F64) : Beqb x y = Beqb y x.
Proof.
  destruct (is_nan x) eqn:Nx; [destruct (B_nan_cmp x y) as (_ & _ & ->); auto; destruct (B_nan_cmp y x) as (_ & _ & ->); auto|].
  destruct (is_nan y) eqn:Ny; [destruct (B_nan_cmp x y) as (_ & _ & ->); auto; destruct (B_nan_cmp y x) as (_ & _ & ->); auto|].
  apply eq_true_iff_eq; rewrite !Beqb_ext by assumption; split; congruence.
Qed.
Lemma Beqb_not_nan (x y : F64) : Beqb x y = true -> not_nan x /\ not_nan y.
Proof.
  intros H; split; unfold not_nan.
  - destruct (is_nan x) eqn:N; [|reflexivity]; destruct (B_nan_cmp x y) as (_ & _ & E); auto; congruence.
  - destruct (is_nan y) eqn:N; [|reflexivity]; destruct (B_nan_cmp x y) as (_ & _ & E); auto; congruence.
Qed.
Lemma Beqb_trans (x y z : F64) : Beqb x y = true -> Beqb y z = true -> Beqb x z = true.
Proof.
  intros H1 H2; pose proof (Beqb_not_nan _ _ H1) as [N1 N2]; pose proof (Beqb_not_nan _ _ H2) as [_ N3].
  rewrite Beqb_ext in * by assumption; congruence.
Qed.
Lemma Beqb_self (x : F64) : Beqb x x = negb (is_nan x).
Proof.
  destruct (is_nan x) eqn:N; [apply (B_nan_cmp x x); auto|]; apply Beqb_ext; auto.
Qed.

Section ArrayEq.
  Context {T : Type} {NT : Num T}.
  Lemma array_eqb_Forall2 (a b : list T) : array_eqb a b = true <-> Forall2 (fun x y => n_eqb x y = true) a b.
  Proof.
    revert b; induction a as [|x a IH]; intros [|y b]; simpl; split; intros H; try discriminate; try constructor; try (inversion H; fail); auto.
    - apply andb_prop in H; tauto.
    - apply andb_prop in H; apply IH; tauto.
    - inversion H; subst; apply andb_true_intro; split; [assumption|apply IH; assumption].
  Qed.
  Lemma std_equal_total p (a b : list T) : length a = length b ->
    exists r, std_equal p a b = Ok r /\ (r = true <-> Forall2 (fun x y => p x y = true) a b).
  Proof.
    revert b; induction a as [|x a IH]; intros [|y b] E; try discriminate; simpl.
    - exists true; split; [reflexivity|]; split; intros; [constructor|reflexivity].
    - destruct (IH b) as (r & -> & Hr); [simpl in E; lia|]; destruct (p x y) eqn:P.
      + exists r; split; [reflexivity|]; rewrite Hr; split; intros H; [constructor; assumption|inversion H; assumption].
      + exists false; split; [reflexivity|]; split; intros H; [discriminate|inversion H; congruence].
  Qed.
End ArrayEq.

(** ** C66 *)
Theorem C66_equivalence :
  forall L : Libm,
  let eq := @equals F64 (f64_num L) in
  (forall a b, eq a b = eq b a) /\
  (forall a b c, eq a b = true -> eq b c = true -> eq a c = true) /\
  (forall a, eq a a = true <-> isValid a = true /\ Forall not_nan (asArray a)).
Proof.
  intros L eq; unfold eq, equals, same_shape; split; [|split].
  - intros a b; rewrite (Z.eqb_sym (itemSize a)), (Z.eqb_sym (count a)), (Z.eqb_sym (dimension a)), (andb_comm (isValid a)).
    f_equal; generalize (asArray a) as x, (asArray b) as y; induction x as [|u x IH]; intros [|v y]; simpl; try reflexivity.
    rewrite Beqb_sym, IH; reflexivity.
  - intros a b c H1 H2; rewrite !andb_true_iff, !Z.eqb_eq, !array_eqb_Forall2 in *.
    destruct H1 as (((((V1 & V2) & I1) & C1) & D1) & A1); destruct H2 as (((((V3 & V4) & I2) & C2) & D2) & A2).
    repeat split; auto; try congruence.
    clear -A1 A2; revert A1 A2; generalize (asArray a) as x, (asArray b) as y, (asArray c) as z; intros x y z A1; revert z.
    induction A1 as [|u v x y H1 A1 IH]; intros z A2; inversion A2 as [|? w ? z' H2 A2']; subst; [constructor|].
    constructor; [exact (Beqb_trans u v w H1 H2)|auto].
  - intros a; rewrite !andb_true_iff, !Z.eqb_eq, array_eqb_Forall2.
    assert (E : Forall2 (fun x y : F64 => Beqb x y = true) (asArray a) (asArray a) <-> Forall not_nan (asArray a)).
    { generalize (asArray a) as x; induction x as [|u x IH]; split; intros H; try constructor; inversion H; subst.
      - unfold not_nan; rewrite Beqb_self in *; apply negb_true_iff; assumption.
      - apply IH; assumption.
      - rewrite Beqb_self; apply negb_true_iff; assumption.
      - apply IH; assumption. }
    cbn [n_eqb f64_num]; rewrite E; intuition.
Qed.
Print Assumptions C66_equivalence.

Lemma app_inv_len {A} (l1 l2 m1 m2 : list A) : length l1 = length m1 -> l1 ++ l2 = m1 ++ m2 -> l1 = m1 /\ l2 = m2.
Proof.
  revert m1; induction l1 as [|x l1 IH]; intros [|y m1] El E; try discriminate; simpl in E; [auto|].
  injection E as -> E; destruct (IH m1) as [-> ->]; auto.
Qed.
Lemma Forall2_rows {A} (P : A -> A -> Prop) k ra : rows_of_size k ra -> forall rb lo lo', rows_of_size k rb -> len ra = len rb ->
  Forall2 P (concat ra ++ lo) (concat rb ++ lo') -> Forall2 (Forall2 P) ra rb.
Proof.
  intros Ra; induction Ra as [|r ra Lr Ra IH]; intros [|r' rb] lo lo' Rb C1 A1.
  - constructor.
  - exfalso; rewrite len_cons in C1; pose proof (len_nonneg rb); change (len (@nil (list A))) with 0 in C1; lia.
  - exfalso; rewrite len_cons in C1; pose proof (len_nonneg ra); change (len (@nil (list A))) with 0 in C1; lia.
  - inversion Rb as [|? ? Lr' Rb']; subst; cbn [concat] in A1; rewrite <- !app_assoc in A1; apply Forall2_app_inv_l in A1.
    destruct A1 as (l1 & l2 & F1 & F2 & E).
    destruct (app_inv_len r' (concat rb ++ lo') l1 l2) as [<- <-]; [|exact E|].
    + assert (Q : length r = length l1) by (clear -F1; induction F1; simpl; auto); unfold len in Lr'; lia.
    + constructor; [exact F1|]; apply (IH rb lo lo'); auto; rewrite !len_cons in C1; lia.
Qed.

(** equal Series: same shape, same dimension, items that compare equal *)
Theorem C66_meaning :
  forall (T : Type) (NT : Num T) (a b : Serie T),
  equals a b = true ->
  isValid a = true /\ isValid b = true /\ itemSize a = itemSize b /\ count a = count b /\ dimension a = dimension b /\
  forall k ra rb, repr a k ra -> repr b k rb -> Forall2 (Forall2 (fun x y => n_eqb x y = true)) ra rb.
Proof.
  intros T NT a b H; unfold equals, same_shape in H; rewrite !andb_true_iff, !Z.eqb_eq, array_eqb_Forall2 in H.
  destruct H as (((((V1 & V2) & I1) & C1) & D1) & A1); repeat (split; [assumption|]).
  intros k ra rb Ha Hb; pose proof (repr_rows _ _ _ Ha) as Ra; pose proof (repr_rows _ _ _ Hb) as Rb.
  rewrite (repr_count _ _ _ Ha), (repr_count _ _ _ Hb) in C1.
  destruct Ha as (_ & _ & (lo & Ea) & _); destruct Hb as (_ & _ & (lo' & Eb) & _).
  unfold asArray in A1; rewrite Ea, Eb in A1; clear -A1 Ra Rb C1.
  exact (Forall2_rows _ k ra Ra rb lo lo' Rb C1 A1).
Qed.
Print Assumptions C66_meaning.

Theorem C66_all :
  forall (L : Libm) first rest,
  @equalsAll F64 (f64_num L) first rest = true <->
  ForallOrdPairs (fun a b => @equals F64 (f64_num L) a b = true) (first :: rest).
Proof.
  intros L first rest; destruct (C66_equivalence L) as (_ & Tr & _).
  revert first; induction rest as [|s rest IH]; intros first; cbn [equalsAll].
  - split; intros; [repeat constructor|reflexivity].
  - rewrite andb_true_iff, IH; split.
    + intros [E H]; constructor; [|exact H]; constructor; [exact E|].
      inversion H as [|? ? H1 _]; subst; clear -E H1 Tr; rewrite Forall_forall in *; intros x Hx; eapply Tr; [exact E|apply H1, Hx].
    + intros H; inversion H as [|? ? H1 H2]; subst; inversion H1; subst; auto.
Qed.
Print Assumptions C66_all.

Example C66_ex :
  let a := mk 2 [[B754_zero false; f64_inf]] 3 in let b := mk 2 [[B754_zero true; f64_inf]] 3 in
  equals a b = true /\ equals a (mk 1 [[B754_zero false]; [f64_inf]] 3) = false /\
  equals (mk 1 [[f64_nan]] 3) (mk 1 [[f64_nan]] 3) = false /\ equals (mk 0 [] 3) (mk 0 [] 3 : Serie F64) = false /\
  equals a (mk 2 [[B754_zero false; f64_inf]] 2) = false /\ equalsAll a [b; a] = true /\ equalsAll (mk 0 [] 3 : Serie F64) [] = true.
Proof. repeat split; reflexivity. Qed.

(** ** C101: approximatelyEquals with epsilon 0 *)
Lemma within_0 (L : Libm) (x y : F64) : is_finite x = true -> is_finite y = true ->
  @within F64 (f64_num L) #0 x y = Beqb x y.
Proof.
  intros Fx Fy; unfold within; cbn [n_leb n_abs n_sub f64_num].
  pose proof (f64_sub_zero x y) as Z; rewrite (Beqb_correct 53 1024 x y Fx Fy).
  destruct (f64_of_Z_correct 0 ltac:(lia)) as (R0 & F0 & _).
  assert (N : is_nan (f64_sub x y) = false).
  { rewrite f64_sub_add; assert (Fy' : is_finite (Bopp y) = true) by (rewrite is_finite_Bopp; exact Fy).
    destruct (Rlt_le_dec (Rabs (rnd (B2R x + B2R (Bopp y)))) (bpow radix2 1024)) as [Hl|Hg].
    - apply nan_finite, (f64_add_exact x (Bopp y) Fx Fy' Hl).
    - destruct (f64_add_overflow x (Bopp y) Fx Fy' Hg) as [-> _]; reflexivity. }
  destruct (Req_bool_spec (B2R x) (B2R y)) as [E|E].
  - destruct Z as [_ Z]; destruct Z as [s ->]; auto.
  - apply not_true_iff_false; rewrite Bleb_ext; [|unfold not_nan; rewrite is_nan_Babs; exact N|apply nan_finite; exact F0].
    rewrite (ext_finite _ F0), R0; intros Hle.
    destruct (is_finite (f64_sub x y)) eqn:Fs.
    + rewrite ext_finite in Hle by (rewrite is_finite_Babs; exact Fs); rewrite B2R_Babs in Hle.
      assert (Hz : B2R (f64_sub x y) = 0%R) by (pose proof (Rabs_pos (B2R (f64_sub x y))); apply Rabs_eq_R0; lra).
      apply E; apply Z; apply is_zero_B2R; assumption.
    + destruct (f64_sub x y) as [s|s| |s m e p]; try discriminate; cbn [Babs ext] in Hle; pose proof (bpow_gt_0 radix2 1024); lra.
Qed.

(** the storages have the same length: no Serie carries leftover numbers the other does not *)
Theorem C101_approx_zero_partial :
  forall (L : Libm) (a b : Serie F64),
  Forall (fun x => is_finite x = true) (asArray a) -> Forall (fun x => is_finite x = true) (asArray b) ->
  len (asArray a) = len (asArray b) ->
  @approximatelyEquals F64 (f64_num L) a b #0 = Ok (@equals F64 (f64_num L) a b).
Proof.
  intros L a b Fa Fb Hl; unfold approximatelyEquals, equals.
  destruct (same_shape a b && (dimension a =? dimension b)); [|reflexivity]; cbn [andb].
  assert (E : length (asArray a) = length (asArray b)) by (unfold len in Hl; lia).
  revert E Fa Fb; generalize (asArray a) as x, (asArray b) as y; clear.
  induction x as [|u x IH]; intros [|v y] E Fa Fb; try discriminate; [reflexivity|].
  inversion Fa; inversion Fb; subst; cbn [std_equal array_eqb]; rewrite (within_0 L u v) by assumption.
  change (@n_eqb F64 (f64_num L) u v) with (@Beqb 53 1024 u v).
  destruct (@Beqb 53 1024 u v); [|reflexivity]; apply IH; auto.
Qed.
Print Assumptions C101_approx_zero_partial.

(** false in general: with a leftover number on one side the two functions differ, or the comparison reads past the end *)
Theorem C101_refuted :
  exists (a b : Serie F64) ra, repr a 2 ra /\ repr b 2 ra /\
    Forall (fun x => is_finite x = true) (asArray a) /\ Forall (fun x => is_finite x = true) (asArray b) /\
    forall L, @equals F64 (f64_num L) a b = false /\ @approximatelyEquals F64 (f64_num L) a b #0 = Ok true /\
              @approximatelyEquals F64 (f64_num L) b a #0 = UB.
Proof.
  set (z := B754_zero false : F64).
  exists (mk 2 [[z; z]] 3), {| s_ := [z; z; z]; count_ := 1; dimension_ := 3; itemSize_ := 2 |}, [[z; z]].
  split; [repr_ex|]; split.
  - split; [reflexivity|]; split; [reflexivity|]; split; [exists [z]; reflexivity|]; split; [repeat constructor|].
    split; [lia|]; split; reflexivity.
  - split; [repeat constructor|]; split; [repeat constructor|].
    intros L; split; [reflexivity|].
    assert (W : @within F64 (f64_num L) #0 z z = true) by (rewrite within_0 by reflexivity; reflexivity).
    assert (A1 : @approximatelyEquals F64 (f64_num L) (mk 2 [[z; z]] 3) {| s_ := [z; z; z]; count_ := 1; dimension_ := 3; itemSize_ := 2 |} #0
               = @std_equal F64 (@within F64 (f64_num L) #0) [z; z] [z; z; z]) by reflexivity.
    assert (A2 : @approximatelyEquals F64 (f64_num L) {| s_ := [z; z; z]; count_ := 1; dimension_ := 3; itemSize_ := 2 |} (mk 2 [[z; z]] 3) #0
               = @std_equal F64 (@within F64 (f64_num L) #0) [z; z; z] [z; z]) by reflexivity.
    rewrite A1, A2; cbn [std_equal]; rewrite W; split; reflexivity.
Qed.
Print Assumptions C101_refuted.
(** such a Serie is what [Serie(2, {0, 0, 0})] builds *)
Example C101_serie : serie_of 2 [B754_zero false; B754_zero false; B754_zero false : F64] 3 =
  Ok {| s_ := [B754_zero false; B754_zero false; B754_zero false]; count_ := 1; dimension_ := 3; itemSize_ := 2 |}.
Proof. reflexivity. Qed.

(** ** C67 *)
Section Masks.
  Context {T : Type} {NT : Num T}.
  Fixpoint all2 (p : T -> T -> bool) (a b : list T) : bool :=
    match a, b with [], [] => true | x :: a', y :: b' => p x y && all2 p a' b' | _, _ => false end.
  Lemma all2_Forall2 p a b : all2 p a b = true <-> Forall2 (fun x y => p x y = true) a b.
  Proof.
    revert b; induction a as [|x a IH]; intros [|y b]; simpl; split; intros H; try discriminate; try constructor; try (inversion H; fail); auto.
    - apply andb_prop in H; tauto.
    - apply andb_prop in H; apply IH; tauto.
    - inversion H; subst; apply andb_true_intro; split; [assumption|apply IH; assumption].
  Qed.
  Lemma mask_ok p (a b : Serie T) k ra rb : repr a k ra -> repr b k rb -> len ra = len rb -> 1 <= k ->
    exists ms, mask p a b = Ok (mk 1 (col ms) 3) /\ length ms = length ra /\
      forall i r r', nth_error ra i = Some r -> nth_error rb i = Some r' ->
        (Forall2 (fun x y => p x y = true) r r' /\ nth_error ms i = Some n1) \/
        (~ Forall2 (fun x y => p x y = true) r r' /\ nth_error ms i = Some n0).
  Proof.
    intros Ha Hb Hl Hk; unfold mask, same_shape.
    rewrite (isValid_repr _ _ _ Ha), (isValid_repr _ _ _ Hb), (repr_itemSize _ _ _ Ha), (repr_itemSize _ _ _ Hb),
      (repr_count _ _ _ Ha), (repr_count _ _ _ Hb), Hl, !Z.eqb_refl.
    replace (0 <? k) with true by (symmetry; apply Z.ltb_lt; lia); cbn [andb negb].
    set (bit := fun r r' => if all2 p r r' then n1 else @n0 T NT).
    exists (map2 bit ra rb); split; [|split].
    - assert (Hb1 : len rb < 4294967296) by (unfold repr in Hb; tauto).
      replace (len rb) with (len (map2 bit ra rb)) by (rewrite len_map2; congruence).
      pose proof (repr_rows _ _ _ Ha) as Ra; pose proof (repr_rows _ _ _ Hb) as Rb.
      set (g := fun i => if k =? 1 then let* x := scalar a i in let* y := scalar b i in Ok (if p x y then n1 else n0)
                         else let* v1 := value a i in let* v2 := value b i in let* e := std_equal p v1 v2 in Ok (if e : bool then n1 else n0)).
      rewrite (foldO_ext _ (fun r i => let* v := g i in set_double r i v)).
      + apply fill_serie_n1; [rewrite len_map2; congruence|].
        intros j z Hz; apply nth_error_map2_inv in Hz; destruct Hz as (r & r' & Hr & Hr' & ->).
        pose proof (rows_nth_len _ _ _ _ Ra Hr) as Lr; pose proof (rows_nth_len _ _ _ _ Rb Hr') as Lr'; unfold g.
        destruct (Z.eqb_spec k 1) as [->|Hk1].
        * destruct (rows_col_1 ra Ra) as [xs ->]; destruct (rows_col_1 rb Rb) as [ys ->].
          rewrite nth_error_col in Hr, Hr'; destruct (nth_error xs j) as [x|] eqn:Ex; [|discriminate]; destruct (nth_error ys j) as [y|] eqn:Ey; [|discriminate].
          injection Hr as <-; injection Hr' as <-.
          rewrite (scalar_nth _ _ _ _ Ha Ex), (scalar_nth _ _ _ _ Hb Ey); unfold bit; simpl; rewrite andb_true_r; reflexivity.
        * rewrite (value_nth _ _ _ _ _ Ha Hr), (value_nth _ _ _ _ _ Hb Hr'); cbn [obind].
          unfold bit; clear -Lr Lr'.
          assert (E : length r = length r') by (unfold len in *; lia); clear Lr Lr'.
          match goal with |- _ = Ok (if ?q then _ else _) => assert (Q : std_equal p r r' = Ok q) end;
            [|rewrite Q; reflexivity].
          revert r' E; induction r as [|x r IH]; intros [|y r'] E; try discriminate; [reflexivity|]; simpl.
          destruct (p x y); [apply IH; simpl in E; lia|reflexivity].
      + intros r i _; unfold g; destruct (k =? 1).
        * destruct (scalar a i); cbn [obind]; try reflexivity; destruct (scalar b i); reflexivity.
        * destruct (value a i) as [v1| |]; cbn [obind]; try reflexivity; destruct (value b i) as [v2| |]; cbn [obind]; try reflexivity.
          destruct (std_equal p v1 v2); reflexivity.
    - apply map2_length; unfold len in Hl; lia.
    - intros i r r' Hr Hr'.
      assert (Q : forall q : bool, (q = true <-> Forall2 (fun x y => p x y = true) r r') -> bit r r' = (if q then n1 else n0) ->
                (Forall2 (fun x y => p x y = true) r r' /\ nth_error (map2 bit ra rb) i = Some n1) \/
                (~ Forall2 (fun x y => p x y = true) r r' /\ nth_error (map2 bit ra rb) i = Some n0)).
      { intros q Hq E; rewrite (nth_error_map2 bit ra rb i r r' Hr Hr'), E; destruct q; [left|right]; split; try reflexivity; [apply Hq; reflexivity|].
        intros F; apply Hq in F; discriminate. }
      eapply Q; [|unfold bit; reflexivity].
      apply all2_Forall2.
  Qed.
End Masks.

Theorem C67_equality_mask :
  forall (T : Type) (NT : Num T) (a b : Serie T),
  (forall k ra rb, repr a k ra -> repr b k rb -> len ra = len rb -> 1 <= k ->
   exists ms, equalityMask a b = Ok (mk 1 (col ms) 3) /\ length ms = length ra /\
     forall i r r', nth_error ra i = Some r -> nth_error rb i = Some r' ->
       (Forall2 (fun x y => n_eqb x y = true) r r' /\ nth_error ms i = Some n1) \/
       (~ Forall2 (fun x y => n_eqb x y = true) r r' /\ nth_error ms i = Some n0)) /\
  (isValid a = false \/ isValid b = false \/ itemSize a <> itemSize b \/ count a <> count b ->
   equalityMask a b = Throw InvalidArgument).
Proof.
  intros T NT a b; split; [intros; apply mask_ok with (k := k) (rb := rb); assumption|].
  intros H; unfold equalityMask, mask, same_shape.
  destruct (isValid a); [|reflexivity]; destruct (isValid b); [|reflexivity]; cbn [andb].
  destruct (Z.eqb_spec (itemSize a) (itemSize b)); [|reflexivity]; destruct (Z.eqb_spec (count a) (count b)); [|reflexivity].
  destruct H as [H|[H|[H|H]]]; congruence.
Qed.
Print Assumptions C67_equality_mask.

Theorem C67_approximate_mask :
  forall (T : Type) (NT : Num T) (a b : Serie T) epsilon,
  (forall k ra rb, repr a k ra -> repr b k rb -> len ra = len rb -> 1 <= k ->
   exists ms, approximateEqualityMask a b epsilon = Ok (mk 1 (col ms) 3) /\ length ms = length ra /\
     forall i r r', nth_error ra i = Some r -> nth_error rb i = Some r' ->
       (Forall2 (fun x y => n_leb (n_abs (n_sub x y)) epsilon = true) r r' /\ nth_error ms i = Some n1) \/
       (~ Forall2 (fun x y => n_leb (n_abs (n_sub x y)) epsilon = true) r r' /\ nth_error ms i = Some n0)) /\
  (isValid a = false \/ isValid b = false \/ itemSize a <> itemSize b \/ count a <> count b ->
   approximateEqualityMask a b epsilon = Throw InvalidArgument).
Proof.
  intros T NT a b epsilon; split; [intros; apply (mask_ok (within epsilon)) with (k := k) (rb := rb); assumption|].
  intros H; unfold approximateEqualityMask, mask, same_shape.
  destruct (isValid a); [|reflexivity]; destruct (isValid b); [|reflexivity]; cbn [andb].
  destruct (Z.eqb_spec (itemSize a) (itemSize b)); [|reflexivity]; destruct (Z.eqb_spec (count a) (count b)); [|reflexivity].
  destruct H as [H|[H|[H|H]]]; congruence.
Qed.
Print Assumptions C67_approximate_mask.

Theorem C67_equals_all_ones :
  forall (T : Type) (NT : Num T) (a b : Serie T) k ra rb,
  repr a k ra -> repr b k rb -> equals a b = true ->
  equalityMask a b = Ok (mk 1 (col (map (fun _ => n1) ra)) 3).
Proof.
  intros T NT a b k ra rb Ha Hb E; destruct (C66_meaning T NT a b E) as (Va & Vb & _ & Hc & _ & Hi).
  specialize (Hi k ra rb Ha Hb).
  rewrite (repr_count _ _ _ Ha), (repr_count _ _ _ Hb) in Hc.
  rewrite (isValid_repr _ _ _ Ha) in Va; apply Z.ltb_lt in Va.
  destruct (proj1 (C67_equality_mask T NT a b) k ra rb Ha Hb Hc ltac:(lia)) as (ms & -> & Lm & Hm).
  do 3 f_equal; apply nth_error_ext; intros i; rewrite nth_error_map.
  destruct (nth_error ra i) as [r|] eqn:Er; simpl.
  - destruct (nth_error_len rb i) as [r' Er']; [pose proof (nth_error_lt _ _ _ Er); unfold len in Hc; lia|].
    destruct (Hm i r r' Er Er') as [[_ Q]|[N _]]; [exact Q|exfalso; apply N].
    clear -Hi Er Er'; revert i Er Er'; induction Hi as [|x y ra rb H1 Hi IH]; intros [|i] Er Er'; try discriminate; simpl in *; [congruence|eapply IH; eassumption].
  - apply nth_error_None; apply nth_error_None in Er; lia.
Qed.
Print Assumptions C67_equals_all_ones.

Example C67_ex :
  let a := mk 2 [[B754_zero false; f64_inf]; [f64_nan; f64_inf]] 3 in let b := mk 2 [[B754_zero true; f64_inf]; [f64_nan; f64_inf]] 3 in
  repr a 2 [[B754_zero false; f64_inf]; [f64_nan; f64_inf]] /\ repr b 2 [[B754_zero true; f64_inf]; [f64_nan; f64_inf]] /\
  equalityMask a b = Ok (mk 1 [[#1]; [#0]] 3) /\
  approximateEqualityMask a b f64_inf = Ok (mk 1 [[#0]; [#0]] 3) /\
  equalityMask a (mk 1 [[f64_inf]; [f64_inf]] 3) = Throw InvalidArgument.
Proof. split; [repr_ex|]; split; [repr_ex|]; repeat split; reflexivity. Qed.
