(** * C163: the programs of unitTest/ that assert nothing. *)
From Flocq Require Import Core IEEE754.BinarySingleNaN.
From Coq Require Import Reals Lra.
From Coq Require Import String.
From Verif Require Import Base Num Serie Spec BaseFacts SerieFacts Functional FunctionalFacts Utils Mathf MathFacts Views Stats Algebra Dataframe Eigen Attributes Exec Random.
From Verif Require Import F64 F64Facts RNum LinSpec OrderFacts Props_Functional Props_Views Props_Det Props_Memo Props_Random Props_Eigen Props_F64Int UnitTests UnitTestsAttributes.
Import ListNotations.
Open Scope Z_scope.
Opaque f64_of_Z.

(** ** view.cxx:58-62 (a comment): the products of matrices and vectors of equal index *)
Definition multiply {T} `{Num T} (items : list (list T)) (_ : Z) : M unit (list T) :=
  lift (let* m := rd items 0 in let* v := rd items 1 in let* A := squaredMatrix m in m_multVec A v).
Definition products {T} `{Num T} (M V : Serie T) : outcome (Serie T) := run (map_n_v multiply [M; V]).

Section Products.
  Context {T : Type} {NT : Num T}.
  Hypothesis root : forall m : list T, len m = 9 -> squaredMatrix m = Ok {| m_data := m; m_alive := true; m_m := 3 |}.

  Definition mv (m v : list T) : list T :=
    map (fun i => fold_left n_add (map (fun j => n_mul (nth (i * 3 + j) m (n_of_Z 0)) (nth j v (n_of_Z 0))) (seq 0 3)) (n_of_Z 0)) (seq 0 3).
  Lemma multiply_ok m v i : len m = 9 -> len v = 3 -> multiply [m; v] i tt = (Ok (mv m v), tt).
  Proof.
    intros Lm Lv; unfold multiply, lift. change (rd [m; v] 0) with (Ok m); change (rd [m; v] 1) with (Ok v); cbn [obind]. rewrite (root m Lm); cbn [obind].
    rewrite (@multVec_ok T NT {| m_data := m; m_alive := true; m_m := 3 |} 3); [reflexivity| |unfold len in Lv; lia].
    repeat split; cbn [m_alive m_m m_data]; unfold len, two32 in *; try lia.
  Qed.
  Lemma products_ok (M V : Serie T) rows vs : repr M 9 rows -> repr V 3 vs -> length rows = length vs -> rows <> [] ->
    products M V = Ok (mk 3 (map2 mv rows vs) 3).
  Proof.
    intros HM HV Hl Hne; unfold products, run.
    assert (Ht : tuples (Z.to_nat (len rows)) [rows; vs] = map (fun p => [fst p; snd p]) (combine rows vs)).
    { unfold len; rewrite Nat2Z.id. unfold tuples, across. clear - Hl. revert vs Hl; induction rows as [|r rows IH]; intros [|v vs] Hl; try discriminate; [reflexivity|].
      cbn [length seq map combine fst snd nth]. f_equal. rewrite <- seq_shift, map_map. injection Hl as Hl. rewrite <- (IH vs Hl). apply map_ext; intros a; reflexivity. }
    destruct (C12_map_multi T NT unit [M; V] [(9, rows); (3, vs)] (len rows) tt tt) as (_ & C & _); [discriminate| | | |].
    - constructor; [exact HM|constructor; [exact HV|constructor]].
    - constructor; [reflexivity|constructor; [unfold len; cbn [snd]; lia|constructor]].
    - destruct rows; [contradiction|]. rewrite len_cons; pose proof (len_nonneg rows); lia.
    - rewrite (C multiply (map2 mv rows vs) 3); [reflexivity| |lia|].
      + cbn [map snd]. rewrite Ht. pose proof (repr_rows _ _ _ HM) as RM; pose proof (repr_rows _ _ _ HV) as RV. clear - RM RV Hl root. unfold enum. generalize 0 at 1; intros i0. revert i0 vs RV Hl.
        induction RM as [|r rows Hr RM IH]; intros i0 [|v vs] RV Hl; try discriminate; [constructor|]. inversion RV as [|? ? Hv RV']; subst. cbn [combine map enum_from map2 fst snd].
        econstructor; [apply multiply_ok; assumption|apply IH; [exact RV'|injection Hl as Hl; exact Hl]].
      + clear. revert vs; induction rows as [|r rows IH]; intros [|v vs]; cbn [map2]; constructor; [reflexivity|apply IH].
  Qed.
End Products.

(** with exact numbers: the products of linear algebra *)
Theorem C163_products : forall (M V : Serie R) rows vs, repr M 9 rows -> repr V 3 vs -> length rows = length vs -> rows <> [] ->
  @products R r_num M V = Ok (mk 3 (map2 (fun m v => mat_vec 3 (full 3 m) v) rows vs) 3).
Proof.
  intros M V rows vs HM HV Hl Hne. rewrite (@products_ok R r_num) with (rows := rows) (vs := vs); try assumption; [|intros m Lm; apply (squaredMatrix_R 3); [unfold two32; lia|exact Lm]].
  f_equal; f_equal. clear. revert vs; induction rows as [|m rows IH]; intros [|v vs]; cbn [map2]; try reflexivity. f_equal; [|apply IH]. unfold mv, mat_vec. apply map_ext; intros i. cbn [n_add n_mul n_of_Z r_num]. rewrite upto_fold. reflexivity.
Qed.
Print Assumptions C163_products.

Example C163_products_real : exists p, @products R r_num (mk 9 [[1; 2; 3; 4; 5; 6; 7; 8; 10]%R] 3) (mk 3 [[1; 0; 2]%R] 3) = Ok p /\ s_ p = [7; 16; 27]%R.
Proof.
  eexists; split; [apply C163_products with (rows := [[1; 2; 3; 4; 5; 6; 7; 8; 10]%R]) (vs := [[1; 0; 2]%R]); [repr_ex|repr_ex|reflexivity|discriminate]|].
  unfold mk, mat_vec, upto, full, LinSpec.total; cbn [map2 s_ concat app seq map fold_right nth Nat.mul Nat.add]. repeat (apply f_equal2; [lra|]); reflexivity.
Qed.

(** in binary64, on small whole numbers: the same products, exactly *)
Lemma mv_exact (L : Libm) B m v : 0 <= B -> 3 * (B * B) <= 2 ^ 53 -> len m = 9 -> len v = 3 -> Forall (whole B) m -> Forall (whole B) v ->
  Forall (fun x => is_finite x = true) (@mv F64 (f64_num L) m v) /\ values (@mv F64 (f64_num L) m v) = mat_vec 3 (full 3 (values m)) (values v).
Proof.
  intros HB Hb Lm Lv Wm Wv.
  destruct m as [|a [|b [|c [|d [|e [|f [|g [|h [|i [|? ?]]]]]]]]]]; try discriminate Lm.
  2: { exfalso; unfold len in Lm; cbn [length] in Lm; lia. }
  destruct v as [|x [|y [|z [|? ?]]]]; try discriminate Lv.
  2: { exfalso; unfold len in Lv; cbn [length] in Lv; lia. }
  repeat match goal with H : Forall _ (_ :: _) |- _ => inversion H; clear H; subst end.
  assert (W : forall p q r, whole B p -> whole B q -> whole B r -> Forall (whole B) [p; q; r]).
  { intros p q r Hp Hq Hr; constructor; [exact Hp|constructor; [exact Hq|constructor; [exact Hr|constructor]]]. }
  assert (R : forall p q r, whole B p -> whole B q -> whole B r ->
    is_real (f64_add (f64_add (f64_add (f64_of_Z 0) (f64_mul p x)) (f64_mul q y)) (f64_mul r z)) (B2R p * B2R x + (B2R q * B2R y + (B2R r * B2R z + 0)))%R).
  { intros p q r Hp Hq Hr. pose proof (int_sum_prod B HB [p; q; r] [x; y; z] (f64_of_Z 0) 0 eq_refl (W p q r Hp Hq Hr) ltac:(apply W; assumption) real_zero) as G.
    cbn [length] in G. specialize (G ltac:(lia)). cbn [map2 fold_left map] in G. unfold inner, LinSpec.total in G; cbn [map2 fold_right] in G. rewrite Rplus_0_l in G. exact G. }
  destruct (R a b c) as [F1 E1]; try assumption. destruct (R d e f) as [F2 E2]; try assumption. destruct (R g h i) as [F3 E3]; try assumption.
  split.
  - repeat constructor; assumption.
  - unfold mv, mat_vec, upto, full, LinSpec.total. cbn [seq map fold_left fold_right nth Nat.mul Nat.add n_add n_mul n_of_Z f64_num].
    apply f_equal2; [exact E1|apply f_equal2; [exact E2|apply f_equal2; [exact E3|reflexivity]]].
Qed.
Theorem C163_products_exact : forall (L : Libm) (M V : Serie F64) rows vs B, repr M 9 rows -> repr V 3 vs -> length rows = length vs -> rows <> [] ->
  0 <= B -> 3 * (B * B) <= 2 ^ 53 -> wholes B rows -> wholes B vs ->
  exists p, @products F64 (f64_num L) M V = Ok p /\ exactly p 3 (map2 (fun m v => mat_vec 3 (full 3 m) v) (map values rows) (map values vs)).
Proof.
  intros L M V rows vs B HM HV Hl Hne HB Hb WM WV.
  eexists; split; [apply products_ok with (rows := rows) (vs := vs); try assumption; intros m Lm; apply squaredMatrix_f64; [right; reflexivity|exact Lm]|].
  eexists; split; [reflexivity|].
  pose proof (repr_rows _ _ _ HM) as RM; pose proof (repr_rows _ _ _ HV) as RV. clear - HB Hb WM WV RM RV.
  revert vs WV RV; induction rows as [|m rows IH]; intros [|v vs] WV RV; cbn [map2 map]; try (split; [constructor|reflexivity]).
  inversion RM; inversion RV; inversion WM; inversion WV; subst. destruct (IH ltac:(assumption) ltac:(assumption) vs) as [F E]; try assumption.
  destruct (mv_exact L B m v) as [F1 E1]; try assumption. split; [constructor; assumption|apply f_equal2; assumption].
Qed.
Print Assumptions C163_products_exact.
Example C163_products_whole : let m := nums [1; 2; 3; 4; 5; 6; 7; 8; 10] in let v := nums [1; 0; 2] in
  repr (mk 9 [m] 3) 9 [m] /\ repr (mk 3 [v] 3) 3 [v] /\ 3 * (10 * 10) <= 2 ^ 53 /\ wholes 10 [m] /\ wholes 10 [v].
Proof.
  cbv zeta; split; [repr_ex|split; [repr_ex|split; [lia|]]].
  unfold nums; cbn [map]; split; whole_ex.
Qed.
(** the numbers of the comment, view.cxx:64-72 *)
Definition upto_nums (n : nat) : list Z := map Z.of_nat (seq 0 n).
Example C163_products_example :
  sameSerie (on (UnitTests.S 9 (upto_nums 27)) (fun m => on (UnitTests.S 3 (upto_nums 9)) (fun v => @products F64 F64N m v)))
    (UnitTests.S 3 [5; 14; 23; 122; 158; 194; 401; 464; 527]) = true.
Proof. vm_compute; reflexivity. Qed.

(** ** memoize.cxx:31-38 *)
Definition low : F64 := f64_of_Z (-100000).
Definition high : F64 := f64_of_Z 100000.
Definition expensive (L : Libm) (s : Serie F64) : M (unit * Cache) (Serie F64) := @memo_call F64 (f64_num L) unit (fun s => lift (@eigenValues F64 (f64_num L) s)) s.

Lemma same_key L key : Forall not_nan key -> @kequiv F64 (f64_num L) key key = true.
Proof.
  intros H; unfold kequiv, incomparable. destruct (@klt F64 (f64_num L) key key) eqn:E; [|reflexivity].
  apply (klt_lexP L key key H H) in E. destruct (lexP_irrefl _ E).
Qed.
Theorem C163_stresses : forall (L : Libm) seed, exists rows vals values c,
  let stress := mk 6 rows 3 in
  random_serie L 1000000 6 low high seed = Ok stress /\ len rows = 1000000 /\ Forall (fun r => len r = 6 /\ Forall (within low high) r) rows /\
  values = mk 3 vals 3 /\ len vals = 1000000 /\ Forall (fun r => len r = 3) vals /\
  @eigenValues F64 (f64_num L) stress = Ok values /\ expensive L stress (tt, []) = (Ok values, (tt, c)) /\
  (forall (f : Serie F64 -> M unit (Serie F64)), exists again, @memo_call F64 (f64_num L) unit f stress (tt, c) = (Ok again, (tt, c)) /\ same_serie again values).
Proof.
  intros L seed. destruct (f64_of_Z_correct 100000 ltac:(lia)) as (A & FA & _); destruct (f64_of_Z_correct (-100000) ltac:(lia)) as (B & FB & _).
  assert (D : is_finite (f64_sub high low) = true).
  { destruct (int_sub high low 100000 (-100000) (conj FA A) (conj FB B) ltac:(lia)) as [F _]; exact F. }
  destruct (C102_random L 1000000 6 low high seed FB FA D) as (rows & E & Rr & Ln & W); try lia; [unfold low, high; rewrite A, B; lra|].
  assert (Hne : rows <> []) by (intros ->; discriminate Ln).
  destruct (@C83_sorted_and_agree F64 (f64_num L) (mk 6 rows 3) 3 rows (or_intror eq_refl) Rr) as (pairs & H); [reflexivity|exact Hne|rewrite Ln; reflexivity|].
  cbv zeta in H. destruct H as (EV & _ & _ & Lp & P).
  change (Z.of_nat 3) with 3 in *.
  assert (K : make_key (mk 6 rows 3) = Ok (concat rows)) by (exact (make_key_repr _ 6 _ Rr)).
  assert (NN : Forall not_nan (concat rows)).
  { apply Forall_concat. eapply Forall_impl; [|exact W]. intros r Hr; eapply Forall_impl; [|exact Hr]. intros x [Fx _]; unfold not_nan; clear - Fx; destruct x; try discriminate Fx; reflexivity. }
  pose (NT := f64_num L). exists rows, (map fst pairs), (mk 3 (map fst pairs) 3), [(concat rows, serie_assign serie_default (mk 3 (map fst pairs) 3))]. cbv zeta.
  split; [exact E|]. split; [exact Ln|]. split; [|split; [reflexivity|split; [|split; [|split; [exact EV|split]]]]].
  - pose proof (repr_rows _ _ _ Rr) as R6. unfold rows_of_size in R6. rewrite Forall_forall in W, R6. apply Forall_forall; intros r Hr; split; [exact (R6 r Hr)|exact (W r Hr)].
  - unfold len in *; rewrite map_length, Lp; exact Ln.
  - apply Forall_map. eapply Forall_impl; [|exact P]. intros ew Hew; apply Hew.
  - unfold expensive, memo_call. rewrite K; cbn [snd fst map]. rewrite klt_swo by (constructor; [exact NN|constructor]). cbn [cache_find find option_map].
    unfold cache_find; cbn [find option_map]. unfold lift. rewrite EV. reflexivity.
  - intros f. eexists; split.
    + unfold memo_call. rewrite K; cbn [snd fst map]. rewrite klt_swo by (constructor; [exact NN|constructor; [exact NN|constructor]]).
      unfold cache_find; cbn [find fst]. rewrite (same_key L _ NN). cbn [option_map snd]. reflexivity.
    + repeat split; reflexivity.
Qed.
Print Assumptions C163_stresses.

(** ** decomposer.cxx:108-137 [basic] and 88-106 [test]: the names they print *)
Open Scope string_scope.
Local Existing Instance F64N.
(** the Series of the frame, of any lengths and numbers; only their sizes of items count *)
Definition basic_frame (a positions indices tensor : Serie F64) :=
  frame [("a", Ok a); ("positions", Ok positions); ("indices", Ok indices); ("S", Ok tensor)].
Definition test_frame (positions indices tensor : Serie F64) := frame [("positions", Ok positions); ("indices", Ok indices); ("S", Ok tensor)].
Definition basic_decomposers : list (decomposer F64 unit) :=
  [Components; EigenValues; EigenVectors; Normals "normals"; Coordinates ["x"; "y"; "z"]; Area "area"; Valence "val"].
Definition test_decomposers : list (decomposer F64 unit) :=
  [Coordinates ["x"; "y"; "z"]; Components; EigenValues; EigenVectors; Normals "normals"; Area "area"].
Theorem C163_names : forall a p i t : Serie F64,
  itemSize_ a = 1 -> itemSize_ p = 3 -> itemSize_ i = 3 -> itemSize_ t = 6 -> dimension_ a = 3 -> dimension_ p = 3 -> dimension_ i = 3 -> dimension_ t = 3 ->
  names_of (basic_frame a p i t) basic_decomposers 3 1 = Ok ["S1"; "S2"; "S3"; "Sxx"; "Sxy"; "Sxz"; "Syy"; "Syz"; "Szz"; "a"; "area"; "val"; "x"; "y"; "z"] /\
  names_of (basic_frame a p i t) basic_decomposers 3 3 = Ok ["S1"; "S2"; "S3"; "normals"] /\
  names_of (basic_frame a p i t) basic_decomposers 3 6 = Ok ["S"] /\
  names_of (test_frame p i t) test_decomposers 3 1 = Ok ["S1"; "S2"; "S3"; "Sxx"; "Sxy"; "Sxz"; "Syy"; "Syz"; "Szz"; "area"; "x"; "y"; "z"] /\
  names_of (test_frame p i t) test_decomposers 3 3 = Ok ["S1"; "S2"; "S3"; "normals"] /\
  names_of (test_frame p i t) test_decomposers 3 6 = Ok ["S"].
Proof.
  intros [sa ca da ka] [sp cp dp kp] [si ci di ki] [st ct dt kt]; cbn [itemSize_ dimension_]. intros -> -> -> -> -> -> -> ->.
  repeat split; vm_compute; reflexivity.
Qed.
Print Assumptions C163_names.
Example C163_names_example :
  match UnitTests.S 1 [1; 2], UnitTests.S 3 [2; 4; 6; 3; 6; 9; 1; 2; 3], UnitTests.S 3 [0; 1; 2], UnitTests.S 6 [2; 4; 6; 3; 6; 9; 1; 2; 3; 4; 5; 6; 9; 8; 7; 6; 5; 4] with
  | Ok a, Ok p, Ok i, Ok t => (itemSize_ a, itemSize_ p, itemSize_ i, itemSize_ t) = (1, 3, 3, 6) /\ (dimension_ a, dimension_ p, dimension_ i, dimension_ t) = (3, 3, 3, 3)
  | _, _, _, _ => False
  end.
Proof. vm_compute; split; reflexivity. Qed.
