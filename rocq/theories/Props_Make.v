(** * C156: operations made for pipes. *)
From Coq Require Import Reals Lra.
From Verif Require Import Base Num Serie Spec BaseFacts SerieFacts Functional FunctionalFacts Mathf MathFacts Utils Stats Algebra F64 F64Facts F64Arith RNum.
From Verif Require Import Props_Functional Props_AddSub Props_MultDiv Props_Merge Props_Zip Props_Algebra.
From Verif Require Import Make.
From Flocq Require Import IEEE754.BinarySingleNaN.
Open Scope Z_scope.
Opaque f64_of_Z.

(** pipe(s, f1, f2, ...) with operations without effects *)
Definition piped {T} (s : Serie T) (fs : list (Serie T -> outcome (Serie T))) : outcome (Serie T) :=
  run (pipe s (map (fun f x => lift (f x)) fs)).

(** [s] is what is piped, [t] what the operation was made with *)
Theorem C156_values :
  forall (T : Type) (NT : Num T) (s t : Serie T) k rs rt,
  repr s k rs -> repr t k rt -> len rs = len rt ->
  piped s [make_op sub t] = Ok (mk k (map2 (map2 n_sub) rt rs) 3) /\
  piped s [make_op add t] = Ok (mk k (map2 (map2 n_add) rt rs) 3) /\
  (k = 3 -> rs <> [] -> piped s [make_op cross t] = Ok (mk 3 (map2 crossp rt rs) 3)) /\
  (k = 1 -> s_ t = concat rt -> piped s [make_op mult_serie t] = Ok (mk 1 (map2 (map2 n_mul) rt rs) 3)) /\
  (2 <= k -> rs <> [] -> piped s [make_op mult_serie t] = Ok (mk k (map2 (map2 n_mul) rt rs) 3)).
Proof.
  intros T NT s t k rs rt Hs Ht Hl.
  destruct (proj1 (C54_add_sub T NT t s) k rt rs Ht Hs (eq_sym Hl)) as [A S].
  split; [exact S|]. split; [exact A|]. split; [|split].
  - intros -> Hne. apply cross_ok; auto; [|unfold len in Hl; lia].
    intros ->. change (len (@nil (list T))) with 0 in Hl. destruct rs; [congruence|]. rewrite len_cons in Hl; pose proof (len_nonneg rs); lia.
  - intros -> Dt.
    assert (C : forall r : list (list T), rows_of_size 1 r -> r = col (concat r)).
    { induction 1 as [|x r Hx Hr IH]; [reflexivity|]. destruct x as [|a [|b x]]; [discriminate| |rewrite !len_cons in Hx; pose proof (len_nonneg x); lia].
      simpl; f_equal; exact IH. }
    assert (Cs := C rs (repr_rows _ _ _ Hs)). assert (Ct := C rt (repr_rows _ _ _ Ht)).
    assert (Ls : len (concat rs) = len rs) by (rewrite Cs at 2; symmetry; apply len_col).
    assert (Lt : len (concat rt) = len rt) by (rewrite Ct at 2; symmetry; apply len_col).
    unfold piped, make_op; cbn [map pipe]; unfold run, lift; cbn [fst].
    rewrite (proj1 (C59_by_serie T NT t s) (concat rt) (concat rs)); [| rewrite <- Ct; exact Ht | rewrite <- Cs; exact Hs | exact Dt | congruence].
    do 2 f_equal. rewrite Cs at 2. rewrite Ct at 2. generalize (concat rs) as ys. generalize (concat rt) as xs. clear.
    induction xs as [|x xs IH]; intros [|y ys]; simpl; try reflexivity. f_equal. apply IH.
  - intros Hk Hne.
    apply (proj2 (proj2 (C59_by_serie T NT t s)) k rt rs Ht Hs Hk); [|congruence].
    intros ->. change (len (@nil (list T))) with 0 in Hl. destruct rs; [congruence|]. rewrite len_cons in Hl; pose proof (len_nonneg rs); lia.
Qed.
Print Assumptions C156_values.

(** The items and the columns of what is piped come last. *)
Theorem C156_joins :
  forall (T : Type) (NT : Num T) (s t : Serie T) k q rs rt,
  repr s k rs -> repr t q rt -> 1 <= k -> 1 <= q ->
  (q = k -> len (rt ++ rs) < 2 ^ 32 -> k * len (rt ++ rs) < 2 ^ 32 ->
   piped s [make_op (fun a b => concat_series [a; b]) t] = Ok (mk k (rt ++ rs) 3)) /\
  (len rs = len rt -> q + k < 2 ^ 31 -> (q + k) * len rs < 2 ^ 32 ->
   piped s [make_op (fun a b => zip_series [a; b]) t] = Ok (mk (q + k) (map2 (@app T) rt rs) 3)).
Proof.
  intros T NT s t k q rs rt Hs Ht Hk Hq. split.
  - intros -> Hl Hm. unfold piped, make_op; cbn [map pipe]; unfold run, lift; cbn [fst].
    rewrite (C29_concat T NT [t; s] k [rt; rs]); try discriminate; auto; cbn [concat]; rewrite ?app_nil_r; auto.
    constructor; [exact Ht|]. constructor; [exact Hs|]. constructor.
  - intros Hl H1 H2. unfold piped, make_op; cbn [map pipe]; unfold run, lift; cbn [fst].
    rewrite (proj1 (C35_zip T NT [t; s] [(q, rt); (k, rs)] (len rs) ltac:(discriminate)
               ltac:(constructor; [exact Ht|]; constructor; [exact Hs|]; constructor)
               ltac:(constructor; [symmetry; exact Hl|]; constructor; [reflexivity|]; constructor)
               ltac:(constructor; [exact Hq|]; constructor; [exact Hk|]; constructor)
               ltac:(unfold sumZ; simpl; lia) ltac:(unfold sumZ; simpl; lia))).
    unfold sumZ; cbn [map fst snd fold_right]. rewrite Z.add_0_r. do 2 f_equal.
    unfold tuples, len in *. rewrite Nat2Z.id. assert (L : length rs = length rt) by lia. clear -L.
    revert rt L; induction rs as [|r rs IH]; intros [|u rt] L; try discriminate; [reflexivity|]. simpl length. cbn [seq map map2].
    f_equal; [cbn; rewrite app_nil_r; reflexivity|].
    rewrite <- (IH rt) by (simpl in L; lia). rewrite <- seq_shift, !map_map. apply map_ext. intros a. reflexivity.
Qed.
Print Assumptions C156_joins.

(** Division is the exception: what is piped is divided. *)
Theorem C156_div :
  forall (T : Type) (NT : Num T) (s : Serie T) k rs, repr s k rs -> rs <> [] -> 1 <= k ->
  (forall c, piped s [make_op div_value c] = Ok (mk k (map (map (fun x => n_div x c)) rs) 3)) /\
  (forall t ws, repr t 1 (col ws) -> len ws = len rs ->
     piped s [make_op div_serie t] = Ok (mk k (map2 (fun r w => map (fun x => guarded x w) r) rs ws) 3)).
Proof.
  intros T NT s k rs Hs Hne Hk. destruct (C60_div T NT s k rs Hs) as [A B]. split; [intros c; apply A; assumption|].
  intros t ws Ht Hl. apply B; assumption.
Qed.
Print Assumptions C156_div.

(** So a difference and a cross product are the opposite of those of the call with what is piped first. *)
Theorem C156_opposite :
  forall (s t : Serie R) k rs rt, repr s k rs -> repr t k rt -> len rs = len rt ->
  exists rows, @sub R r_num s t = Ok (mk k rows 3) /\ piped s [make_op (@sub R r_num) t] = Ok (mk k (map (map Ropp) rows) 3) /\
  (k = 3 -> rs <> [] -> exists rows, @cross R r_num s t = Ok (mk k rows 3) /\ piped s [make_op (@cross R r_num) t] = Ok (mk k (map (map Ropp) rows) 3)) /\
  piped s [make_op (@sub R r_num) t; make_op (@sub R r_num) t] = Ok (mk k rs 3).
Proof.
  intros s t k rs rt Hs Ht Hl.
  destruct (proj1 (C54_add_sub R r_num s t) k rs rt Hs Ht Hl) as [_ S].
  pose proof (proj1 (C156_values R r_num s t k rs rt Hs Ht Hl)) as P.
  eexists; split; [exact S|]. split; [|split].
  - rewrite P. do 2 f_equal. clear. revert rt; induction rs as [|r rs IH]; intros [|u rt]; simpl; try reflexivity. f_equal; [|apply IH].
    clear; revert u; induction r as [|x r IH]; intros [|y u]; simpl; try reflexivity. f_equal; [change (@n_sub R r_num) with Rminus; lra|apply IH].
  - intros -> Hne. apply (C74_antisymmetric s t rs rt); auto. unfold len in Hl; lia.
  - pose proof (repr_rows _ _ _ Hs) as Rs. pose proof (repr_rows _ _ _ Ht) as Rt.
    assert (Rm : rows_of_size k (map2 (map2 (@n_sub R r_num)) rt rs)) by (apply rows_map2; assumption).
    assert (Hb : 0 <= k < 2147483648 /\ len rs < 4294967296 /\ k * len rs < 4294967296) by (unfold repr in Hs; tauto).
    assert (Lm : len (map2 (map2 (@n_sub R r_num)) rt rs) = len rt) by (apply len_map2; congruence).
    unfold piped, make_op in P |- *; cbn [map pipe] in P |- *. unfold run, lift, mbind in P |- *; cbn [fst] in P |- *.
    rewrite P; cbn [fst snd].
    assert (Rk : repr (mk k (map2 (map2 (@n_sub R r_num)) rt rs) 3) k (map2 (map2 (@n_sub R r_num)) rt rs)) by (apply repr_mk; auto; rewrite ?Lm, <- ?Hl; lia).
    rewrite (proj2 (proj1 (C54_add_sub R r_num t _) k rt _ Ht Rk (eq_sym Lm))). do 2 f_equal.
    assert (L : length rs = length rt) by (unfold len in Hl; lia). clear -L Rs Rt.
    revert rt L Rt; induction Rs as [|r rs Hr Rs IH]; intros [|u rt] L Rt; try discriminate; [reflexivity|]. inversion Rt as [|? ? Hu Rt']; subst. simpl.
    f_equal; [|apply IH; [simpl in L; lia|exact Rt']].
    assert (L' : length r = length u) by (unfold len in Hu; lia). clear -L'.
    revert u L'; induction r as [|x r IH]; intros [|y u] L'; try discriminate; [reflexivity|]. simpl.
    f_equal; [change (@n_sub R r_num) with Rminus; lra|apply IH; simpl in L'; lia].
Qed.
Print Assumptions C156_opposite.

(** Multiplying items by factors, one for each: refused when the operation is made with the factors, fine when made with the items. *)
Theorem C156_factors :
  forall (T : Type) (NT : Num T) (s t : Serie T) k rows ws,
  repr s k rows -> repr t 1 (col ws) -> 2 <= k -> rows <> [] -> len rows = len ws ->
  let product := mk k (map2 (fun r d => map (fun x => n_mul x d) r) rows ws) 3 in
  mult_serie s t = Ok product /\
  piped s [make_op mult_serie t] = Throw InvalidArgument /\
  piped t [make_op mult_serie s] = Ok product.
Proof.
  intros T NT s t k rows ws Hs Ht Hk Hne Hl product.
  pose proof (proj1 (proj2 (C59_by_serie T NT s t)) k rows ws Hs Ht Hk Hne Hl) as P.
  split; [exact P|]. split; [|exact P].
  apply C59_shapes. right; left. rewrite (repr_itemSize _ _ _ Ht), (repr_itemSize _ _ _ Hs). lia.
Qed.
Print Assumptions C156_factors.

(** Made with a number: the number becomes the item size of an empty Serie. *)
Theorem C156_number :
  forall (T : Type) (NT : Num T) (s : Serie T) (c : T), count s <> 0 ->
  (forall q, n_to_Z c = Some q -> - 2 ^ 31 <= q < 2 ^ 31 ->
     make_op_number sub c s = Throw InvalidArgument /\
     make_op_number mult_serie c s = Throw InvalidArgument /\
     make_op_number covariance c s = Throw InvalidArgument /\
     make_op_number (fun a b => Ok (equals a b)) c s = Ok false /\
     (q <> 3 \/ itemSize_ s <> 3 -> 0 <= itemSize_ s < 2 ^ 31 -> make_op_number cross c s = Throw InvalidArgument) /\
     (q = 3 -> itemSize_ s = 3 -> make_op_number cross c s = Ok (mk 0 [] 3))) /\
  ((n_to_Z c = None \/ exists q, n_to_Z c = Some q /\ ~ - 2 ^ 31 <= q < 2 ^ 31) ->
     make_op_number sub c s = UB /\ make_op_number mult_serie c s = UB /\ make_op_number covariance c s = UB /\
     make_op_number cross c s = UB /\ make_op_number (fun a b => Ok (equals a b)) c s = UB).
Proof.
  intros T NT s c Hc. split.
  - intros q Eq Hq.
    assert (E : serie_of_number c = Ok (serie_n q 0 3)).
    { unfold serie_of_number, n_to_s32; rewrite Eq. change two31 with (2 ^ 31).
      rewrite (proj2 (Z.leb_le _ _)), (proj2 (Z.ltb_lt _ _)) by lia. reflexivity. }
    assert (C0 : count (serie_n (T := T) q 0 3) = 0) by reflexivity.
    assert (Cn : (0 =? count s) = false) by (apply Z.eqb_neq; congruence).
    unfold make_op_number; rewrite E; cbn [obind].
    split; [apply C54_add_sub; right; congruence|].
    split; [apply C59_shapes; left; congruence|].
    split; [unfold covariance; rewrite C0, Cn; reflexivity|].
    split; [unfold equals, same_shape; rewrite C0, Cn, andb_false_r; reflexivity|].
    split.
    + intros H Hi. apply C74_refused. unfold itemSize. cbn [serie_n itemSize_]. unfold isValid; cbn [serie_n itemSize_].
      destruct (Z.ltb_spec 0 q); [|left; reflexivity]. right. destruct (Z.ltb_spec 0 (itemSize_ s)); [|left; reflexivity]. right.
      rewrite !u32_small by lia. exact H.
    + intros -> Hi. unfold cross, isValid, itemSize. rewrite Hi. reflexivity.
  - intros H. assert (E : serie_of_number c = UB).
    { unfold serie_of_number, n_to_s32. destruct H as [->|(q & -> & Hq)]; [reflexivity|]. change two31 with (2 ^ 31).
      destruct (Z.leb_spec (- 2 ^ 31) q), (Z.ltb_spec q (2 ^ 31)); cbn [andb obind]; try reflexivity. lia. }
    unfold make_op_number; rewrite E; repeat split; reflexivity.
Qed.
Print Assumptions C156_number.

(** In doubles the difference is the opposite too, rounding included, up to the sign of a zero. *)
Theorem C156_opposite_doubles :
  forall (L : Libm) (s t : Serie F64) k rs rt, repr s k rs -> repr t k rt -> len rs = len rt ->
  exists rows rows', @sub F64 (f64_num L) s t = Ok (mk k rows 3) /\ piped s [make_op (@sub F64 (f64_num L)) t] = Ok (mk k rows' 3) /\
  Forall2 (Forall2 (fun x y => zeq x (Bopp y))) rows' rows.
Proof.
  intros L s t k rs rt Hs Ht Hl.
  destruct (proj1 (C54_add_sub F64 (f64_num L) s t) k rs rt Hs Ht Hl) as [_ S].
  pose proof (proj1 (C156_values F64 (f64_num L) s t k rs rt Hs Ht Hl)) as P.
  do 2 eexists; split; [exact S|]; split; [exact P|]. clear.
  assert (Z : forall x y : F64, zeq (f64_sub y x) (Bopp (f64_sub x y))).
  { intros x y. assert (O : forall u : F64, is_zero u -> is_zero (Bopp u)) by (intros u [b ->]; exists (negb b); reflexivity).
    destruct (f64_sub_anti y x) as [Z1|E]; [|left; exact E]. right; split; [exact Z1|].
    destruct (f64_sub_anti x y) as [Z2|E]; [apply O, Z2|]. rewrite E. apply O, O, Z1. }
  revert rt; induction rs as [|r rs IH]; intros [|u rt]; simpl; constructor; [|apply IH].
  clear -Z; revert u; induction r as [|x r IH]; intros [|y u]; simpl; constructor; [apply Z|apply IH].
Qed.
Print Assumptions C156_opposite_doubles.

Example C156_ex :
  let s := mk 3 [[1; 2; 3]]%R 3 in let t := mk 3 [[10; 20; 30]]%R 3 in let w := mk 1 [[2]]%R 3 in
  piped s [make_op (@sub R r_num) t] = Ok (mk 3 [[10 - 1; 20 - 2; 30 - 3]]%R 3) /\
  piped s [make_op (@sub R r_num) t; make_op (@sub R r_num) t] = Ok (mk 3 [[1; 2; 3]]%R 3) /\
  piped s [make_op (fun a b => @concat_series R r_num [a; b]) t] = Ok (mk 3 [[10; 20; 30]; [1; 2; 3]]%R 3) /\
  piped s [make_op (fun a b => @zip_series R r_num [a; b]) w] = Ok (mk 4 [[2; 1; 2; 3]]%R 3) /\
  piped s [make_op (@div_value R r_num) 2%R] = Ok (mk 3 [[1 / 2; 2 / 2; 3 / 2]]%R 3) /\
  piped s [make_op (@mult_serie R r_num) w] = Throw InvalidArgument /\
  piped w [make_op (@mult_serie R r_num) s] = Ok (mk 3 [[1 * 2; 2 * 2; 3 * 2]]%R 3).
Proof.
  intros s t w.
  assert (Hs : repr s 3 [[1; 2; 3]]%R) by repr_ex. assert (Ht : repr t 3 [[10; 20; 30]]%R) by repr_ex.
  assert (Hw : repr w 1 (col [2]%R)) by repr_ex.
  split; [apply (C156_values R r_num s t 3 _ _ Hs Ht eq_refl)|].
  split; [destruct (C156_opposite s t 3 _ _ Hs Ht eq_refl) as (rows & _ & _ & _ & E); exact E|].
  split; [apply (C156_joins R r_num s t 3 3 _ _ Hs Ht); (lia || reflexivity)|].
  split; [apply (C156_joins R r_num s w 3 1 _ _ Hs Hw); (lia || reflexivity)|].
  split; [apply (C156_div R r_num s 3 _ Hs); (lia || discriminate)|].
  apply (C156_factors R r_num s w 3 _ _ Hs Hw); (lia || discriminate || reflexivity).
Qed.
Lemma f64_of_Z_trunc_2 : n_to_Z (Num:=F64N) (n_of_Z (Num:=F64N) 2) = Some 2.
Proof. vm_compute. reflexivity. Qed.
Example C156_number_ex :
  let two := n_of_Z (Num:=F64N) 2 in let five := n_of_Z (Num:=F64N) 5 in let s := mk 1 [[five]] 3 in
  @make_op_number F64 F64N _ (@sub F64 F64N) two s = Throw InvalidArgument /\
  @make_op_number F64 F64N _ (@mult_serie F64 F64N) two s = Throw InvalidArgument /\
  @mult F64 F64N s two = Ok (mk 1 [[n_mul (Num:=F64N) five two]] 3).
Proof.
  intros two five s. assert (Hc : count s <> 0) by discriminate.
  destruct (proj1 (C156_number F64 F64N s two Hc) 2 f64_of_Z_trunc_2 ltac:(lia)) as (A & B & _).
  split; [exact A|]. split; [exact B|].
  apply (C59_by_number F64 F64N s 1 [[five]]); [repr_ex|discriminate|lia].
Qed.
