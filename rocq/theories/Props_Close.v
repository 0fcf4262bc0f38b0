(** * C149: approximatelyEquals, approximatelyEqualsAll and approximateEqualityMask answer the same question. *)
From Verif Require Import Base Num Serie Spec BaseFacts SerieFacts Functional FunctionalFacts Mathf MathFacts MinMaxFacts Utils.
From Verif Require Import F64 F64Facts F64Arith OrderFacts Props_Functional Props_MultDiv Props_Equals Props_Tolerance.
From Flocq Require Import Core IEEE754.BinarySingleNaN.
From Coq Require Import Reals Lra.
Open Scope Z_scope.
Opaque f64_of_Z.

(** |x - y| <= e, as computed *)
Definition near {T} {NT : Num T} (e x y : T) : Prop := n_leb (n_abs (n_sub x y)) e = true.

Lemma rows_Forall2 {T} (P : T -> T -> Prop) k (ra rb : list (list T)) :
  rows_of_size k ra -> rows_of_size k rb -> len ra = len rb ->
  (Forall2 P (concat ra) (concat rb) <-> Forall2 (Forall2 P) ra rb).
Proof.
  intros Ha Hb El; split; intros H.
  - apply (Forall2_rows P k ra Ha rb [] [] Hb El); rewrite !app_nil_r; exact H.
  - clear Ha Hb El; induction H as [|x y la lb Hxy H IH]; [constructor|]; cbn [concat]; apply Forall2_app; assumption.
Qed.
Lemma Forall2_len {A B} (P : A -> B -> Prop) a b : Forall2 P a b -> len a = len b.
Proof. unfold len; induction 1 as [|x y a b H Hab IH]; [reflexivity|]; cbn [length]; lia. Qed.

(** ** C149 *)
(** When the two storages have the same length both functions answer, without a throw and without undefined behaviour, and the
    answer is yes exactly when the Series are valid, agree in shape and dimension, and every number is near its counterpart. *)
Theorem C149_decides :
  forall (T : Type) (NT : Num T) (a b : Serie T) (e : T), len (asArray a) = len (asArray b) ->
  exists r, approximatelyEquals a b e = Ok r /\ approximatelyEqualsAll2 a b e = Ok r /\
    (r = true <-> isValid a = true /\ isValid b = true /\ itemSize a = itemSize b /\ count a = count b /\ dimension a = dimension b /\
                  Forall2 (near e) (asArray a) (asArray b)).
Proof.
  intros T NT a b e Hl; unfold approximatelyEqualsAll2.
  assert (Q : exists r, approximatelyEquals a b e = Ok r /\
    (r = true <-> isValid a = true /\ isValid b = true /\ itemSize a = itemSize b /\ count a = count b /\ dimension a = dimension b /\ Forall2 (near e) (asArray a) (asArray b))).
  { assert (No : forall c : Prop, ~ c -> exists r, Ok false = Ok r /\ (r = true <-> c)).
    { intros c Hc; exists false; split; [reflexivity|]; split; [discriminate|contradiction]. }
    unfold approximatelyEquals, same_shape.
    destruct (isValid a) eqn:K; cbn [andb]; [|apply No; intros (Q & _); discriminate Q].
    destruct (isValid b) eqn:K'; cbn [andb]; [|apply No; intros (_ & Q & _); discriminate Q].
    destruct (Z.eqb_spec (itemSize a) (itemSize b)) as [Ek|N]; cbn [andb]; [|apply No; tauto].
    destruct (Z.eqb_spec (count a) (count b)) as [Ec|N]; cbn [andb]; [|apply No; tauto].
    destruct (Z.eqb_spec (dimension a) (dimension b)) as [Ed|N]; cbn [andb]; [|apply No; tauto].
    destruct (std_equal_total (within e) (asArray a) (asArray b)) as (r & E & Hr); [unfold len in Hl; lia|].
    exists r; split; [exact E|]; rewrite Hr; split; [intros H; repeat split; try assumption; reflexivity|intros (_ & _ & _ & _ & _ & H); exact H]. }
  destruct Q as (r & E & Hr); exists r; rewrite E; split; [reflexivity|]; split; [reflexivity|exact Hr].
Qed.
Print Assumptions C149_decides.

(** by items *)
Theorem C149_items :
  forall (T : Type) (NT : Num T) k ra rb d (e : T), 1 <= k -> rows_of_size k ra -> rows_of_size k rb -> len ra = len rb ->
  (approximatelyEquals (mk k ra d) (mk k rb d) e = Ok true <-> Forall2 (Forall2 (near e)) ra rb) /\
  (approximatelyEquals (mk k ra d) (mk k rb d) e = Ok false <-> ~ Forall2 (Forall2 (near e)) ra rb).
Proof.
  intros T NT k ra rb d e Hk Ra Rb El.
  assert (El' : len (asArray (mk k ra d)) = len (asArray (mk k rb d))).
  { unfold asArray, mk; cbn [s_]; rewrite !(len_concat k) by assumption; rewrite El; reflexivity. }
  destruct (C149_decides T NT (mk k ra d) (mk k rb d) e El') as (r & -> & _ & Hr).
  unfold isValid, itemSize, count, dimension, asArray, mk in Hr; cbn [s_ itemSize_ count_ dimension_] in Hr.
  rewrite (rows_Forall2 _ k) in Hr by assumption.
  assert (K : (0 <? k) = true) by (apply Z.ltb_lt; lia).
  assert (Hr' : r = true <-> Forall2 (Forall2 (near e)) ra rb) by (rewrite Hr; split; [intros (_ & _ & _ & _ & _ & F); exact F|intros F; auto 10]).
  clear Hr; rename Hr' into Hr.
  destruct r; split; split; intros H; try reflexivity; try discriminate.
  - apply Hr; reflexivity.
  - exfalso; apply H, Hr; reflexivity.
  - apply Hr in H; discriminate H.
  - intros H'; apply Hr in H'; discriminate H'.
Qed.
Print Assumptions C149_items.

(** the mask is all ones exactly when the Series are approximately equal *)
Theorem C149_mask :
  forall (L : Libm) k ra rb d (e : F64), 1 <= k < 2147483648 -> rows_of_size k ra -> rows_of_size k rb -> len ra = len rb ->
  len ra < 4294967296 -> k * len ra < 4294967296 ->
  let ones := mk 1 (col (map (fun _ => #1) ra)) 3 in
  (@approximatelyEquals F64 (f64_num L) (mk k ra d) (mk k rb d) e = Ok true <->
   @approximateEqualityMask F64 (f64_num L) (mk k ra d) (mk k rb d) e = Ok ones) /\
  (@equals F64 (f64_num L) (mk k ra d) (mk k rb d) = true <->
   @equalityMask F64 (f64_num L) (mk k ra d) (mk k rb d) = Ok ones).
Proof.
  intros L k ra rb d e Hk Ra Rb El Hn Hm ones.
  assert (Ha : repr (mk k ra d) k ra) by (apply repr_mk; auto; lia).
  assert (Hb : repr (mk k rb d) k rb) by (apply repr_mk; auto; rewrite <- ?El; lia).
  assert (N10 : (#1 : F64) <> #0) by (intros Q; apply (f_equal B2R) in Q; rewrite (proj1 (f64_of_Z_correct 1 ltac:(lia))), (proj1 (f64_of_Z_correct 0 ltac:(lia))) in Q; lra).
  assert (G : forall p : F64 -> F64 -> bool,
    (Forall2 (Forall2 (fun x y => p x y = true)) ra rb <-> @mask F64 (f64_num L) p (mk k ra d) (mk k rb d) = Ok ones)).
  { intros p; destruct (@mask_ok F64 (f64_num L) p _ _ k ra rb Ha Hb El ltac:(lia)) as (ms & -> & Lm & Hms).
    assert (El' : length ra = length rb) by (unfold len in El; lia).
    unfold ones; split; intros H.
    - do 3 f_equal; apply nth_error_ext; intros i; rewrite nth_error_map.
      destruct (nth_error ra i) as [r|] eqn:Er; cbn [option_map].
      + destruct (nth_error_len rb i) as [r' Er']; [pose proof (nth_error_lt _ _ _ Er); lia|].
        destruct (Hms i r r' Er Er') as [[_ Q]|[N _]]; [exact Q|exfalso; apply N].
        clear -H Er Er'; revert i Er Er'; induction H as [|x y la lb Hxy H IH]; intros [|i] Er Er'; try discriminate; cbn [nth_error] in *; [congruence|eapply IH; eassumption].
      + apply nth_error_None; apply nth_error_None in Er; lia.
    - assert (Em : ms = map (fun _ => #1) ra).
      { injection H as H _; clear -H; revert H; generalize (map (fun _ : list F64 => #1) ra) as xs; induction ms as [|m ms IH]; intros [|x xs] H; cbn in H; try discriminate H; [reflexivity|].
        injection H as -> H; f_equal; apply IH, H. }
      subst ms; clear -Hms El' N10.
      assert (Q : forall i r r', nth_error ra i = Some r -> nth_error rb i = Some r' -> Forall2 (fun x y => p x y = true) r r').
      { intros i r r' Er Er'; destruct (Hms i r r' Er Er') as [[Q _]|[_ Q]]; [exact Q|exfalso].
        rewrite nth_error_map, Er in Q; cbn [option_map] in Q; injection Q as Q; exact (N10 Q). }
      clear Hms; revert rb El' Q; induction ra as [|r ra IH]; intros [|r' rb] El' Q; try discriminate El'; constructor.
      + exact (Q 0%nat r r' eq_refl eq_refl).
      + apply IH; [cbn [length] in El'; lia|]; intros i; exact (Q (S i)). }
  split.
  - rewrite (proj1 (C149_items F64 (f64_num L) k ra rb d e ltac:(lia) Ra Rb El)); exact (G (@within F64 (f64_num L) e)).
  - assert (Eq : @equals F64 (f64_num L) (mk k ra d) (mk k rb d) = true <-> Forall2 (Forall2 (fun x y => @n_eqb F64 (f64_num L) x y = true)) ra rb).
    { unfold equals, same_shape, isValid, itemSize, count, dimension, asArray, mk; cbn [s_ itemSize_ count_ dimension_].
      rewrite El, !Z.eqb_refl; replace (0 <? k) with true by (symmetry; apply Z.ltb_lt; lia); cbn [andb].
      rewrite array_eqb_Forall2; apply (rows_Forall2 _ k); assumption. }
    rewrite Eq; exact (G (@n_eqb F64 (f64_num L))).
Qed.
Print Assumptions C149_mask.

(** a larger tolerance accepts more *)
Lemma Bleb_trans_num (x y z : F64) : @Bleb 53 1024 x y = true -> @Bleb 53 1024 y z = true -> @Bleb 53 1024 x z = true.
Proof.
  intros H1 H2.
  assert (Nx : not_nan x) by (destruct x; try reflexivity; destruct y; discriminate H1).
  assert (Ny : not_nan y) by (destruct y; try reflexivity; destruct x as [| | |[] ? ? ?]; discriminate H1).
  assert (Nz : not_nan z) by (destruct z; try reflexivity; destruct y as [| | |[] ? ? ?]; discriminate H2).
  rewrite Bleb_ext in * by assumption; lra.
Qed.
Theorem C149_monotone :
  forall (L : Libm) (a b : Serie F64) (e e' : F64), len (asArray a) = len (asArray b) -> @Bleb 53 1024 e e' = true ->
  @approximatelyEquals F64 (f64_num L) a b e = Ok true -> @approximatelyEquals F64 (f64_num L) a b e' = Ok true.
Proof.
  intros L a b e e' Hl He H.
  destruct (C149_decides F64 (f64_num L) a b e Hl) as (r & E & _ & Hr); rewrite H in E; injection E as <-.
  destruct (C149_decides F64 (f64_num L) a b e' Hl) as (r' & -> & _ & Hr'); f_equal; apply Hr'.
  destruct Hr as [Hr _]; destruct (Hr eq_refl) as (V & V' & I & C & D & F); repeat split; try assumption.
  clear -F He; induction F as [|x y la lb Hxy F IH]; constructor; [|exact IH].
  unfold near in *; cbn [n_leb f64_num] in *; exact (Bleb_trans_num _ _ _ Hxy He).
Qed.
Print Assumptions C149_monotone.

(** a Serie is approximately equal to itself if and only if it has no infinity and no NaN *)
Theorem C149_reflexive :
  forall (L : Libm) (a : Serie F64) (e : F64), isValid a = true -> @Bleb 53 1024 #0 e = true ->
  (@approximatelyEquals F64 (f64_num L) a a e = Ok true <-> Forall (fun x => is_finite x = true) (asArray a)) /\
  (@approximatelyEquals F64 (f64_num L) a a e = Ok false <-> ~ Forall (fun x => is_finite x = true) (asArray a)).
Proof.
  intros L a e Va He; destruct (C149_decides F64 (f64_num L) a a e eq_refl) as (r & -> & _ & Hr).
  assert (S : Forall2 (@near F64 (f64_num L) e) (asArray a) (asArray a) <-> Forall (fun x => is_finite x = true) (asArray a)).
  { generalize (asArray a) as l; clear -He; induction l as [|x l IH]; [split; constructor|].
    assert (Q : @near F64 (f64_num L) e x x <-> is_finite x = true).
    { unfold near; cbn [n_leb n_abs n_sub f64_num]; split; intros H.
      - destruct x as [s|s| |s m ex p]; try reflexivity; exfalso; [destruct s|]; cbn in H; destruct e; discriminate H.
      - pose proof (within_0 L x x H H) as W; unfold within in W; cbn [n_leb n_abs n_sub f64_num] in W.
        apply (Bleb_trans_num _ #0); [rewrite W|exact He]; rewrite (Beqb_correct 53 1024 x x H H); destruct (Req_bool_spec (B2R x) (B2R x)); congruence. }
    split; intros H; inversion H; subst; constructor; first [apply Q|apply IH]; assumption. }
  rewrite S in Hr.
  assert (Hr' : r = true <-> Forall (fun x => is_finite x = true) (asArray a)).
  { rewrite Hr; split; [intros (_ & _ & _ & _ & _ & F); exact F|intros F; repeat split; auto]. }
  destruct r; split; split; intros H; try reflexivity; try discriminate.
  - apply Hr'; reflexivity.
  - exfalso; apply H, Hr'; reflexivity.
  - apply Hr' in H; discriminate H.
  - intros H'; apply Hr' in H'; discriminate H'.
Qed.
Print Assumptions C149_reflexive.

Theorem C149_symmetric :
  forall (L : Libm) (a b : Serie F64) (e : F64), len (asArray a) = len (asArray b) ->
  @approximatelyEquals F64 (f64_num L) a b e = @approximatelyEquals F64 (f64_num L) b a e.
Proof.
  intros L a b e Hl.
  destruct (C149_decides F64 (f64_num L) a b e Hl) as (r & -> & _ & Hr); destruct (C149_decides F64 (f64_num L) b a e (eq_sym Hl)) as (r' & -> & _ & Hr').
  f_equal; apply eq_true_iff_eq; rewrite Hr, Hr'.
  assert (S : forall u v, Forall2 (@near F64 (f64_num L) e) u v -> Forall2 (@near F64 (f64_num L) e) v u).
  { intros u v F; induction F as [|x y u v Hxy F IH]; constructor; [|exact IH].
    pose proof (within_sym L e x y) as W; unfold within in W; unfold near in *; rewrite <- W; exact Hxy. }
  split; intros (V & V' & I & C & D & F); repeat split; auto; lia.
Qed.
Print Assumptions C149_symmetric.

(** the relation is not transitive *)
Theorem C149_not_transitive :
  exists (a b c : Serie F64), forall L,
  @approximatelyEquals F64 (f64_num L) a b #1 = Ok true /\ @approximatelyEquals F64 (f64_num L) b c #1 = Ok true /\
  @approximatelyEquals F64 (f64_num L) a c #1 = Ok false.
Proof.
  exists (mk 1 [[#0]] 3), (mk 1 [[#1]] 3), (mk 1 [[#2]] 3); intros L.
  Transparent f64_of_Z. split; [reflexivity|]; split; reflexivity.
Qed.
Opaque f64_of_Z.
Print Assumptions C149_not_transitive.

(** with leftover numbers in the first Serie only, the comparison reads past the end of the second *)
Theorem C149_leftover_undefined :
  forall (T : Type) (NT : Num T) (a b : Serie T) (e : T) more, isValid a = true -> isValid b = true ->
  itemSize a = itemSize b -> count a = count b -> dimension a = dimension b -> more <> [] ->
  (exists same, asArray a = same ++ more /\ Forall2 (near e) same (asArray b)) ->
  approximatelyEquals a b e = UB /\ approximatelyEqualsAll2 a b e = UB.
Proof.
  intros T NT a b e more Va Vb I C D Hm (same & Ea & F).
  assert (Q : approximatelyEquals a b e = UB).
  { unfold approximatelyEquals, same_shape; rewrite Va, Vb, I, C, D, !Z.eqb_refl, Ea; cbn [andb].
    revert F; generalize (asArray b) as l; clear -Hm; intros l F; induction F as [|x y u v Hxy F IH]; cbn [app std_equal].
    - destruct more; [congruence|reflexivity].
    - unfold near in Hxy; unfold within at 1; rewrite Hxy; exact IH. }
  unfold approximatelyEqualsAll2; rewrite Q; split; reflexivity.
Qed.
Print Assumptions C149_leftover_undefined.

Example C149_ex :
  let a := mk 2 [[#1; #2]; [#3; #4]] 3 in let b := mk 2 [[#1; #2]; [#3; #5]] 3 in
  @Bleb 53 1024 #0 #1 = true /\ isValid a = true /\
  @approximatelyEquals F64 F64N a b #1 = Ok true /\ @approximatelyEquals F64 F64N a b #0 = Ok false /\
  @approximatelyEqualsAll2 F64 F64N a b #1 = Ok true /\ @approximatelyEqualsAll2 F64 F64N a b #0 = Ok false /\
  @approximateEqualityMask F64 F64N a b #1 = Ok (mk 1 [[#1]; [#1]] 3) /\
  @approximatelyEquals F64 F64N (mk 1 [[f64_inf]] 3) (mk 1 [[f64_inf]] 3) #1 = Ok false.
Proof.
  Transparent f64_of_Z. cbv zeta.
  repeat (split; [reflexivity|]); reflexivity.
Qed.
Opaque f64_of_Z.
