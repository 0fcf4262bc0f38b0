(** * C151: identities of vector algebra between the programs of the library (exact reals). *)
From Verif Require Import Base Num Serie Spec BaseFacts SerieFacts Functional FunctionalFacts Mathf MathFacts MinMaxFacts Utils UtilsFacts Algebra AlgebraFacts
  LinSpec RNum Props_Functional Props_Zip Props_AddSub Props_MultDiv Props_Algebra Props_Det.
From Verif Require Import Props_Laws.
From Coq Require Import Reals Lra.
Open Scope Z_scope.
#[local] Existing Instance r_num.

Section Tables.
  Context {X : Type}.
  Implicit Types (l : list X).

  Lemma map2_maps {A B C} (h : A -> B -> C) (f : X -> A) (g : X -> B) l : map2 h (map f l) (map g l) = map (fun x => h (f x) (g x)) l.
  Proof. induction l as [|x l IH]; cbn [map map2]; [reflexivity|rewrite IH; reflexivity]. Qed.
  Lemma map_nonempty {A} (f : X -> A) l : l <> [] -> map f l <> [].
  Proof. destruct l; [congruence|discriminate]. Qed.
  Lemma col_map (f : X -> R) l : col (map f l) = map (fun x => [f x]) l.
  Proof. unfold col; apply map_map. Qed.

  (** every item of the table has [k] numbers, and the table fits a Serie *)
  Definition sized (k : Z) l (f : X -> list R) : Prop := 1 <= k < 2147483648 /\ (forall x, In x l -> len (f x) = k) /\ l <> [] /\ k * len l < 4294967296.
  Lemma sized_repr k l f d : sized k l f -> repr (mk k (map f l) d) k (map f l).
  Proof.
    intros (Hk & Hf & Hne & Hb); pose proof (len_nonneg l).
    assert (L : 1 <= len l) by (destruct l; [congruence|rewrite len_cons; pose proof (len_nonneg l); lia]).
    apply repr_mk; rewrite ?len_map; try nia.
    apply Forall_forall; intros r Hr; apply in_map_iff in Hr; destruct Hr as (x & <- & Hx); apply Hf, Hx.
  Qed.
  Lemma repr_sized (s : Serie R) k l f : repr s k (map f l) -> 1 <= k -> l <> [] -> sized k l f.
  Proof.
    intros H Hk Hne; split; [unfold repr in H; tauto|]; split; [|split; [exact Hne|]].
    - intros x Hx; pose proof (repr_rows _ _ _ H) as Hr; unfold rows_of_size in Hr; rewrite Forall_forall in Hr; apply Hr, in_map, Hx.
    - unfold repr in H; rewrite len_map in H; tauto.
  Qed.

  Variable l : list X.
  Hypothesis Hne : l <> [].

  Lemma T_cross a b f g : repr a 3 (map f l) -> repr b 3 (map g l) -> cross a b = Ok (mk 3 (map (fun x => crossp (f x) (g x)) l) 3).
  Proof. intros Ha Hb; rewrite (cross_ok R r_num a b _ _ Ha Hb), map2_maps; [reflexivity|apply map_nonempty, Hne|rewrite !map_length; lia]. Qed.
  Lemma T_dot a b k f g : repr a k (map f l) -> repr b k (map g l) -> dot a b = Ok (mk 1 (map (fun x => [inner (f x) (g x)]) l) 3).
  Proof.
    intros Ha Hb; rewrite (dot_ok R r_num a b k _ _ Ha Hb), map2_maps, col_map; [|apply map_nonempty, Hne|rewrite !map_length; lia].
    do 2 f_equal; apply map_ext; intros x; rewrite sum_prod_inner; reflexivity.
  Qed.
  Lemma T_add a b k f g : repr a k (map f l) -> repr b k (map g l) -> add a b = Ok (mk k (map (fun x => map2 Rplus (f x) (g x)) l) 3).
  Proof. intros Ha Hb; rewrite (proj1 (proj1 (C54_add_sub R r_num a b) k _ _ Ha Hb ltac:(rewrite !len_map; reflexivity))), map2_maps; reflexivity. Qed.
  Lemma T_sub a b k f g : repr a k (map f l) -> repr b k (map g l) -> sub a b = Ok (mk k (map (fun x => map2 Rminus (f x) (g x)) l) 3).
  Proof. intros Ha Hb; rewrite (proj2 (proj1 (C54_add_sub R r_num a b) k _ _ Ha Hb ltac:(rewrite !len_map; reflexivity))), map2_maps; reflexivity. Qed.
  Lemma T_mult a k f t : repr a k (map f l) -> 1 <= k -> mult a t = Ok (mk k (map (fun x => map (fun y => y * t)%R (f x)) l) 3).
  Proof. intros Ha Hk; rewrite (proj1 (proj2 (C59_by_number R r_num a k _ t Ha)) (map_nonempty _ _ Hne) Hk), map_map; reflexivity. Qed.
  Lemma T_mult_serie a b k f g : repr a k (map f l) -> repr b 1 (map (fun x => [g x]) l) -> 2 <= k ->
    mult_serie a b = Ok (mk k (map (fun x => map (fun y => y * g x)%R (f x)) l) 3).
  Proof.
    intros Ha Hb Hk; rewrite <- col_map in Hb.
    rewrite (proj1 (proj2 (C59_by_serie R r_num a b)) k _ _ Ha Hb Hk (map_nonempty _ _ Hne)) by (rewrite !len_map; reflexivity).
    rewrite map2_maps; reflexivity.
  Qed.
  Lemma T_det9 a f : repr a 9 (map f l) -> dimension a = 3 -> det a = Ok (mk 1 (map (fun x => [determinant 3 (full 3 (f x))]) l) 3).
  Proof.
    intros Ha Hd; change 9 with (Z.of_nat (3 * 3)) in Ha.
    rewrite (C77_full_matrices_partial a 3 _ ltac:(auto) Ha Hd (map_nonempty _ _ Hne)), map_map, col_map; reflexivity.
  Qed.
  Definition tr9 (v : list R) : list R := match v with [a; b; c; d; e; f; g; h; i] => [a; d; g; b; e; h; c; f; i] | _ => [] end.
  Lemma T_transpose9 a f : repr a 9 (map f l) -> transpose a = Ok (mk 9 (map (fun x => tr9 (f x)) l) 3).
  Proof.
    intros Ha; pose proof (repr_rows _ _ _ Ha) as Hr; unfold rows_of_size in Hr; rewrite Forall_forall in Hr.
    unfold transpose; rewrite (repr_itemSize _ _ _ Ha); cbn [Z.eqb Pos.eqb negb andb].
    rewrite (map_rows_ok a 9 (map f l) transpose9_item tr9 9 Ha (map_nonempty _ _ Hne) ltac:(lia)), map_map; [reflexivity|].
    intros r Hin; specialize (Hr r Hin); unfold len in Hr.
    do 9 (destruct r as [|? r]; [discriminate Hr|]); destruct r; [split; reflexivity|cbn [length] in Hr; lia].
  Qed.
  Lemma T_zip3 a b c f g h : repr a 3 (map f l) -> repr b 3 (map g l) -> repr c 3 (map h l) -> 9 * len l < 4294967296 ->
    zip_series [a; b; c] = Ok (mk 9 (map (fun x => f x ++ g x ++ h x) l) 3).
  Proof.
    intros Ha Hb Hc H9.
    destruct (C35_zip R r_num [a; b; c] [(3, map f l); (3, map g l); (3, map h l)] (len l)) as [-> _].
    - discriminate.
    - repeat (apply Forall2_cons; [assumption|]); apply Forall2_nil.
    - repeat (apply Forall_cons; [cbn [snd]; apply len_map|]); apply Forall_nil.
    - repeat (apply Forall_cons; [cbn [fst]; lia|]); apply Forall_nil.
    - cbn; lia.
    - change (sumZ _) with 9; lia.
    - change (sumZ (map fst [(3, map f l); (3, map g l); (3, map h l)])) with 9; cbn [map snd].
      do 2 f_equal; unfold len; rewrite Nat2Z.id; clear; unfold tuples; rewrite map_map.
      induction l as [|x m IH]; [reflexivity|]; cbn [length seq map]; f_equal; [unfold across; cbn [map nth concat]; rewrite app_nil_r; reflexivity|].
      rewrite <- seq_shift, map_map, <- IH; reflexivity.
  Qed.
End Tables.

(** ** tables of equal length as columns of one list *)
Lemma columns2 {A B} (ra : list A) (rb : list B) : length ra = length rb -> exists l : list (A * B), ra = map fst l /\ rb = map snd l.
Proof.
  revert rb; induction ra as [|a ra IH]; intros [|b rb] H; try discriminate H; [exists []; auto|].
  destruct (IH rb) as (l & -> & ->); [cbn [length] in H; lia|]; exists ((a, b) :: l); auto.
Qed.
Lemma columns3 {A B C} (ra : list A) (rb : list B) (rc : list C) : length ra = length rb -> length rb = length rc ->
  exists l : list (A * (B * C)), ra = map fst l /\ rb = map (fun x => fst (snd x)) l /\ rc = map (fun x => snd (snd x)) l.
Proof.
  intros H1 H2; destruct (columns2 rb rc H2) as (l & -> & ->); destruct (columns2 ra l) as (m & -> & ->); [rewrite map_length in H1; exact H1|].
  exists m; rewrite !map_map; auto.
Qed.

Ltac three v := let H := fresh in destruct v as [|? [|? [|? [|? v]]]]; unfold len in *; cbn [length] in *; try lia.

(** the size of each intermediate result *)
Lemma size_cross (u v : list R) : len u = 3 -> len v = 3 -> len (crossp u v) = 3.
Proof. intros Hu Hv; three u; three v; reflexivity. Qed.
Lemma size_map2 (h : R -> R -> R) (u v : list R) k : len u = k -> len v = k -> len (map2 h u v) = k.
Proof. intros Hu Hv; rewrite len_map2; congruence. Qed.


Lemma size_scaled (t : R) (u : list R) k : len u = k -> len (map (fun y => y * t)%R u) = k.
Proof. rewrite len_map; auto. Qed.
Lemma size_tr9 (v : list R) : len v = 9 -> len (tr9 v) = 9.
Proof. intros H; do 9 (destruct v as [|? v]; [discriminate H|]); destruct v; [reflexivity|unfold len in H; cbn [length] in H; lia]. Qed.
Ltac size := cbv beta; repeat first [reflexivity|apply size_cross|apply size_scaled|apply size_tr9|apply size_map2|solve [auto]].
Ltac shape := first [eassumption|eapply sized_repr; split; [lia|]; split; [intros ? ?; size|]; split; [assumption|nia]].
(** runs the next call of the program on the tables *)
Ltac run1 l N := first
  [ erewrite (T_cross l N) by shape | erewrite (T_dot l N) by shape | erewrite (T_add l) by shape | erewrite (T_sub l) by shape
  | erewrite (T_mult l N) by first [shape|lia] | erewrite (T_mult_serie l N) by first [shape|lia]
  | (erewrite (T_det9 l N); [|shape|first [assumption|reflexivity]]) | erewrite (T_transpose9 l N) by shape ]; cbn [obind].
Ltac runs l N := repeat run1 l N; reflexivity.
Ltac vectors := unfold inner, LinSpec.total; cbn [map map2 crossp fold_right n_sub n_mul r_num]; repeat (f_equal; try ring).

(** ** C151 *)
(** the scalar triple product is the determinant of the zipped Series *)
Theorem C151_triple_product :
  forall (a b c : Serie R) ra rb rc, repr a 3 ra -> repr b 3 rb -> repr c 3 rc -> ra <> [] -> length ra = length rb -> length rb = length rc ->
  9 * len ra < 4294967296 ->
  (let* x := cross a b in dot x c) ≈ (let* z := zip_series [a; b; c] in det z).
Proof.
  intros a b c ra rb rc Ha Hb Hc Hne Hab Hbc H9; destruct (columns3 ra rb rc Hab Hbc) as (l & -> & -> & ->); rewrite len_map in H9.
  assert (N : l <> []) by (destruct l; [elim Hne; reflexivity|discriminate]).
  pose proof (repr_sized a 3 l _ Ha ltac:(lia) N) as (_ & Sa & _ & Bd); pose proof (repr_sized b 3 l _ Hb ltac:(lia) N) as (_ & Sb & _); pose proof (repr_sized c 3 l _ Hc ltac:(lia) N) as (_ & Sc & _).
  eapply agree_ok; [runs l N|].
  rewrite (T_zip3 l a b c _ _ _ Ha Hb Hc H9); cbn [obind].
  rewrite (T_det9 l N _ (fun x => fst x ++ fst (snd x) ++ snd (snd x))); [| |reflexivity].
  - do 2 f_equal; apply map_ext_in; intros x Hx; specialize (Sa x Hx); specialize (Sb x Hx); specialize (Sc x Hx); cbv beta in Sa, Sb, Sc.
    destruct x as (u & v & w); cbn [fst snd] in *; three u; three v; three w.
    f_equal; det_unfold; unfold full, inner, LinSpec.total; cbn; ring.
  - apply sized_repr; split; [lia|]; split; [intros x Hx; rewrite !len_app, (Sa x Hx), (Sb x Hx), (Sc x Hx); reflexivity|]; split; [exact N|lia].
Qed.
Print Assumptions C151_triple_product.

(** a x (b x c) = b (a . c) - c (a . b), and the sum over the three rotations vanishes *)
Theorem C151_double_cross :
  forall (a b c : Serie R) ra rb rc, repr a 3 ra -> repr b 3 rb -> repr c 3 rc -> ra <> [] -> length ra = length rb -> length rb = length rc ->
  ((let* bc := cross b c in cross a bc) ≈
   (let* ac := dot a c in let* x := mult_serie b ac in let* ab := dot a b in let* y := mult_serie c ab in sub x y)) /\
  ((let* bc := cross b c in let* x := cross a bc in let* ca := cross c a in let* y := cross b ca in let* ab := cross a b in let* z := cross c ab in
    let* xy := add x y in add xy z) ≈ Ok (mk 3 (map (fun _ => [0; 0; 0]%R) ra) 3)).
Proof.
  intros a b c ra rb rc Ha Hb Hc Hne Hab Hbc; destruct (columns3 ra rb rc Hab Hbc) as (l & -> & -> & ->).
  assert (N : l <> []) by (destruct l; [elim Hne; reflexivity|discriminate]).
  pose proof (repr_sized a 3 l _ Ha ltac:(lia) N) as (_ & Sa & _ & Bd); pose proof (repr_sized b 3 l _ Hb ltac:(lia) N) as (_ & Sb & _); pose proof (repr_sized c 3 l _ Hc ltac:(lia) N) as (_ & Sc & _).
  cbv beta in Sa, Sb, Sc.
  split.
  - eapply agree_ok; [runs l N|]; repeat run1 l N; do 2 f_equal; apply map_ext_in; intros x Hx; specialize (Sa x Hx); specialize (Sb x Hx); specialize (Sc x Hx).
    destruct x as (u & v & w); cbn [fst snd] in *; three u; three v; three w; vectors.
  - eapply agree_ok; [|reflexivity]; repeat run1 l N; rewrite map_map; do 2 f_equal; apply map_ext_in; intros x Hx; specialize (Sa x Hx); specialize (Sb x Hx); specialize (Sc x Hx).
    destruct x as (u & v & w); cbn [fst snd] in *; three u; three v; three w; vectors.
Qed.
Print Assumptions C151_double_cross.

Lemma inner_plus (u v w : list R) : length u = length v -> (inner (map2 Rplus u v) w = inner u w + inner v w)%R.
Proof.
  unfold inner, LinSpec.total; revert v w; induction u as [|x u IH]; intros [|y v] [|z w] H; try discriminate H; cbn [map2 fold_right]; try ring.
  rewrite IH by (cbn [length] in H; lia); ring.
Qed.
Lemma inner_minus (u v w : list R) : length u = length v -> (inner (map2 Rminus u v) w = inner u w - inner v w)%R.
Proof.
  unfold inner, LinSpec.total; revert v w; induction u as [|x u IH]; intros [|y v] [|z w] H; try discriminate H; cbn [map2 fold_right]; try ring.
  rewrite IH by (cbn [length] in H; lia); ring.
Qed.
Lemma inner_times (u w : list R) t : (inner (map (fun y => y * t) u) w = inner u w * t)%R.
Proof. unfold inner, LinSpec.total; revert w; induction u as [|x u IH]; intros [|z w]; cbn [map map2 fold_right]; try ring; rewrite IH; ring. Qed.

(** dot distributes over add, sub and mult, for items of any size *)
Theorem C151_dot_bilinear :
  forall (a b c : Serie R) k ra rb rc t, repr a k ra -> repr b k rb -> repr c k rc -> ra <> [] -> 1 <= k -> length ra = length rb -> length rb = length rc ->
  ((let* x := add a b in dot x c) ≈ (let* x := dot a c in let* y := dot b c in add x y)) /\
  ((let* x := sub a b in dot x c) ≈ (let* x := dot a c in let* y := dot b c in sub x y)) /\
  ((let* x := mult a t in dot x c) ≈ (let* x := dot a c in mult x t)).
Proof.
  intros a b c k ra rb rc t Ha Hb Hc Hne Hk Hab Hbc; destruct (columns3 ra rb rc Hab Hbc) as (l & -> & -> & ->).
  assert (N : l <> []) by (destruct l; [elim Hne; reflexivity|discriminate]).
  pose proof (repr_sized a k l _ Ha ltac:(lia) N) as (Kb & Sa & _ & Bd); pose proof (repr_sized b k l _ Hb ltac:(lia) N) as (_ & Sb & _); pose proof (repr_sized c k l _ Hc ltac:(lia) N) as (_ & Sc & _).
  cbv beta in Sa, Sb, Sc; pose proof (len_nonneg l) as Ll.
  split; [|split]; (eapply agree_ok; [runs l N|]; repeat run1 l N; do 2 f_equal; apply map_ext_in; intros x Hx; specialize (Sa x Hx); specialize (Sb x Hx); specialize (Sc x Hx);
    destruct x as (u & v & w); cbn [fst snd map map2] in *; f_equal; unfold len in *).
  - symmetry; apply inner_plus; lia.
  - symmetry; apply inner_minus; lia.
  - symmetry; apply inner_times.
Qed.
Print Assumptions C151_dot_bilinear.

Theorem C151_cross_bilinear :
  forall (a b c : Serie R) ra rb rc t, repr a 3 ra -> repr b 3 rb -> repr c 3 rc -> ra <> [] -> length ra = length rb -> length rb = length rc ->
  ((let* x := add a b in cross x c) ≈ (let* x := cross a c in let* y := cross b c in add x y)) /\
  ((let* x := sub a b in cross x c) ≈ (let* x := cross a c in let* y := cross b c in sub x y)) /\
  ((let* x := mult a t in cross x c) ≈ (let* x := cross a c in mult x t)).
Proof.
  intros a b c ra rb rc t Ha Hb Hc Hne Hab Hbc; destruct (columns3 ra rb rc Hab Hbc) as (l & -> & -> & ->).
  assert (N : l <> []) by (destruct l; [elim Hne; reflexivity|discriminate]).
  pose proof (repr_sized a 3 l _ Ha ltac:(lia) N) as (_ & Sa & _ & Bd); pose proof (repr_sized b 3 l _ Hb ltac:(lia) N) as (_ & Sb & _); pose proof (repr_sized c 3 l _ Hc ltac:(lia) N) as (_ & Sc & _).
  cbv beta in Sa, Sb, Sc.
  split; [|split]; (eapply agree_ok; [runs l N|]; repeat run1 l N; do 2 f_equal; apply map_ext_in; intros x Hx; specialize (Sa x Hx); specialize (Sb x Hx); specialize (Sc x Hx);
    destruct x as (u & v & w); cbn [fst snd] in *; three u; three v; three w; vectors).
Qed.
Print Assumptions C151_cross_bilinear.

(** the parallelogram law, and the inner product from the lengths of the sum and of the difference *)
Theorem C151_parallelogram :
  forall (a b : Serie R) k ra rb, repr a k ra -> repr b k rb -> ra <> [] -> 1 <= k -> length ra = length rb ->
  ((let* s := add a b in let* x := dot s s in let* d := sub a b in let* y := dot d d in add x y) ≈
   (let* x := dot a a in let* y := dot b b in let* z := add x y in mult z 2%R)) /\
  ((let* s := add a b in let* x := dot s s in let* d := sub a b in let* y := dot d d in sub x y) ≈ (let* x := dot a b in mult x 4%R)).
Proof.
  intros a b k ra rb Ha Hb Hne Hk Hab; destruct (columns2 ra rb Hab) as (l & -> & ->).
  assert (N : l <> []) by (destruct l; [elim Hne; reflexivity|discriminate]).
  pose proof (repr_sized a k l _ Ha ltac:(lia) N) as (Kb & Sa & _ & Bd); pose proof (repr_sized b k l _ Hb ltac:(lia) N) as (_ & Sb & _).
  cbv beta in Sa, Sb; pose proof (len_nonneg l) as Ll.
  split; (eapply agree_ok; [runs l N|]; repeat run1 l N; do 2 f_equal; apply map_ext_in; intros x Hx; specialize (Sa x Hx); specialize (Sb x Hx);
    destruct x as (u & v); cbn [fst snd map map2] in *; f_equal; unfold len in *;
    assert (L : length u = length v) by lia;
    rewrite inner_plus, inner_minus by exact L; rewrite !(inner_sym _ (map2 _ _ _)), !inner_plus, !inner_minus by exact L; rewrite (inner_sym v u); ring).
Qed.
Print Assumptions C151_parallelogram.

(** 3x3 matrices: transposing commutes with add and mult and keeps the determinant; a factor comes out of the determinant cubed *)
Theorem C151_matrices :
  forall (a b : Serie R) ra rb t, repr a 9 ra -> repr b 9 rb -> dimension a = 3 -> ra <> [] -> length ra = length rb ->
  ((let* s := add a b in transpose s) ≈ (let* x := transpose a in let* y := transpose b in add x y)) /\
  ((let* s := mult a t in transpose s) ≈ (let* x := transpose a in mult x t)) /\
  ((let* x := transpose a in det x) ≈ det a) /\
  ((let* x := mult a t in det x) ≈ (let* x := det a in mult x (t * t * t)%R)).
Proof.
  intros a b ra rb t Ha Hb Hd Hne Hab; destruct (columns2 ra rb Hab) as (l & -> & ->).
  assert (N : l <> []) by (destruct l; [elim Hne; reflexivity|discriminate]).
  pose proof (repr_sized a 9 l _ Ha ltac:(lia) N) as (_ & Sa & _ & Bd); pose proof (repr_sized b 9 l _ Hb ltac:(lia) N) as (_ & Sb & _).
  cbv beta in Sa, Sb.
  assert (Nine : forall v : list R, len v = 9 -> exists v0 v1 v2 v3 v4 v5 v6 v7 v8, v = [v0; v1; v2; v3; v4; v5; v6; v7; v8]).
  { intros v H; unfold len in H; do 9 (destruct v as [|? v]; [discriminate H|]); destruct v; [repeat eexists|cbn [length] in H; lia]. }
  split; [|split; [|split]]; (eapply agree_ok; [runs l N|]; repeat run1 l N; do 2 f_equal; apply map_ext_in; intros x Hx; specialize (Sa x Hx); specialize (Sb x Hx);
    destruct (Nine _ Sa) as (?&?&?&?&?&?&?&?&?&Eu); destruct (Nine _ Sb) as (?&?&?&?&?&?&?&?&?&Ev); rewrite ?Eu, ?Ev; cbn [map map2 tr9]).
  - reflexivity.
  - reflexivity.
  - f_equal; det_unfold; unfold full; cbn; ring.
  - f_equal; det_unfold; unfold full; cbn; ring.
Qed.
Print Assumptions C151_matrices.

(** for 2x2 matrices the last two laws fail: transpose and mult give a Serie of dimension 3, which det refuses *)
Theorem C151_plane_refuted :
  exists a : Serie R, repr a 4 [[1; 0; 0; 1]%R] /\ dimension a = 2 /\ det a = Ok (mk 1 [[1%R]] 3) /\
  (let* x := transpose a in det x) = Throw InvalidArgument /\ (let* x := mult a 2%R in det x) = Throw InvalidArgument.
Proof.
  exists (mk 4 [[1; 0; 0; 1]%R] 2); split; [repr_ex|]; split; [reflexivity|]; split; [|split; reflexivity].
  rewrite (C77_full_matrices_partial _ 2 [[1; 0; 0; 1]%R]); [|auto|repr_ex|reflexivity|discriminate].
  do 2 f_equal; unfold col; cbn [map]; do 2 f_equal; det_unfold; unfold full; cbn; ring.
Qed.
Print Assumptions C151_plane_refuted.

Example C151_ex : let a := mk 3 [[1; 2; 3]%R] 3 in let b := mk 3 [[0; 1; 4]%R] 3 in let c := mk 3 [[5; 6; 0]%R] 3 in
  repr a 3 [[1; 2; 3]%R] /\ repr b 3 [[0; 1; 4]%R] /\ repr c 3 [[5; 6; 0]%R] /\
  (let* x := cross a b in dot x c) = Ok (mk 1 [[1%R]] 3).
Proof.
  cbv zeta; split; [repr_ex|]; split; [repr_ex|]; split; [repr_ex|].
  rewrite (cross_ok R r_num _ _ [[1; 2; 3]%R] [[0; 1; 4]%R]); [|repr_ex|repr_ex|discriminate|cbn; lia]; cbn [obind map2].
  rewrite (dot_ok R r_num _ _ 3 [crossp [1; 2; 3]%R [0; 1; 4]%R] [[5; 6; 0]%R]); [|repr_ex|repr_ex|discriminate|cbn; lia].
  do 2 f_equal; unfold col; cbn [map map2]; rewrite sum_prod_inner; do 2 f_equal.
  unfold inner, LinSpec.total; cbn [map2 crossp fold_right n_sub n_mul r_num]; lra.
Qed.
