(** * C74, C75, C76, C80: cross, dot, norm, transpose. *)
From Verif Require Import Base Num Serie Spec BaseFacts SerieFacts Functional FunctionalFacts Utils Mathf MathFacts MinMaxFacts Views Algebra AlgebraFacts.
From Verif Require Import F64 F64Facts F64Arith RNum LinSpec Props_Functional Props_Mean.
From Coq Require Import Reals Lra.
From Flocq Require Import Core IEEE754.BinarySingleNaN.
Open Scope Z_scope.
Opaque f64_of_Z.

Lemma map2_nth_same {A B C} (f : A -> B -> C) : forall a b i, (length a <= length b)%nat -> forall x y, nth_error a i = Some x -> nth_error b i = Some y ->
  nth_error (map2 f a b) i = Some (f x y).
Proof.
  induction a as [|x a IH]; intros [|y b] [|i] H u v; cbn [map2 nth_error length] in *; intros E1 E2; try discriminate; try congruence.
  apply IH; [lia|exact E1|exact E2].
Qed.
Lemma map2_length_le {A B C} (f : A -> B -> C) : forall a b, (length a <= length b)%nat -> length (map2 f a b) = length a.
Proof. induction a as [|x a IH]; intros [|y b] H; simpl in *; try lia; f_equal; apply IH; lia. Qed.
Lemma nth_error_map2_le {A B C} (f : A -> B -> C) : forall a b i z, nth_error (map2 f a b) i = Some z ->
  exists x y, nth_error a i = Some x /\ nth_error b i = Some y /\ z = f x y.
Proof.
  induction a as [|x a IH]; intros [|y b] [|i] z; cbn [map2 nth_error]; try discriminate.
  - intros E; injection E as <-; eauto.
  - apply IH.
Qed.

(** ** C74 *)
Definition crossp {T} {NT : Num T} (u v : list T) : list T :=
  match u, v with
  | [a0; a1; a2], [b0; b1; b2] =>
      [n_sub (n_mul a1 b2) (n_mul a2 b1); n_sub (n_mul a2 b0) (n_mul a0 b2); n_sub (n_mul a0 b1) (n_mul a1 b0)]
  | _, _ => []
  end.
Lemma cross_ok (T : Type) (NT : Num T) (a b : Serie T) ra rb :
  repr a 3 ra -> repr b 3 rb -> ra <> [] -> (length ra <= length rb)%nat -> cross a b = Ok (mk 3 (map2 crossp ra rb) 3).
Proof.
  intros Ha Hb Hne Hl; unfold cross; rewrite (isValid_repr _ _ _ Ha), (isValid_repr _ _ _ Hb), (repr_itemSize _ _ _ Ha), (repr_itemSize _ _ _ Hb).
  cbn [negb Z.ltb Z.compare Z.eqb Pos.eqb].
  pose proof (repr_rows _ _ _ Ha) as Ra; pose proof (repr_rows _ _ _ Hb) as Rb.
  apply (run_map_vv _ a 3 ra 3 _ Ha Hne); [lia|apply map2_length_le; exact Hl| |].
  - apply Forall_forall; intros z Hz; apply In_nth_error in Hz; destruct Hz as [i Hz].
    destruct (nth_error_map2_le _ _ _ _ _ Hz) as (x & y & Ex & Ey & ->).
    destruct (len3 x (rows_nth_len 3 _ _ _ Ra Ex)) as (? & ? & ? & ->); destruct (len3 y (rows_nth_len 3 _ _ _ Rb Ey)) as (? & ? & ? & ->); reflexivity.
  - intros j r z Er Ez; destruct (nth_error_map2_le _ _ _ _ _ Ez) as (x & y & Ex & Ey & ->).
    rewrite Er in Ex; injection Ex as <-; unfold lift; rewrite (value_nth b 3 rb j y Hb Ey); cbn [obind].
    destruct (len3 r (rows_nth_len 3 _ _ _ Ra Er)) as (? & ? & ? & ->); destruct (len3 y (rows_nth_len 3 _ _ _ Rb Ey)) as (? & ? & ? & ->); reflexivity.
Qed.

Theorem C74_cross :
  forall (a b : Serie R) ra rb,
  repr a 3 ra -> repr b 3 rb -> ra <> [] -> (length ra <= length rb)%nat ->
  exists rows, @cross R r_num a b = Ok (mk 3 rows 3) /\ length rows = length ra /\
  forall i u v w, nth_error ra i = Some u -> nth_error rb i = Some v -> nth_error rows i = Some w ->
    inner w u = 0%R /\ inner w v = 0%R /\
    inner w w = (inner u u * inner v v - inner u v * inner u v)%R /\
    (forall t, (u = map (Rmult t) v \/ v = map (Rmult t) u) -> w = [0; 0; 0]%R) /\
    (forall x, length x = 3%nat -> inner w x = determinant 3 (full 3 (u ++ v ++ x))).
Proof.
  intros a b ra rb Ha Hb Hne Hl; exists (map2 (@crossp R r_num) ra rb).
  split; [apply cross_ok; assumption|]; split; [apply map2_length_le; exact Hl|].
  intros i u v w Eu Ev Ew; rewrite (map2_nth_same _ _ _ _ Hl _ _ Eu Ev) in Ew; injection Ew as <-.
  destruct (len3 u (rows_nth_len 3 _ _ _ (repr_rows _ _ _ Ha) Eu)) as (u0 & u1 & u2 & ->).
  destruct (len3 v (rows_nth_len 3 _ _ _ (repr_rows _ _ _ Hb) Ev)) as (v0 & v1 & v2 & ->).
  unfold crossp, inner, LinSpec.total; cbn [n_sub n_mul r_num map2 fold_right].
  split; [ring|]; split; [ring|]; split; [ring|]; split.
  - intros t [E|E]; cbn [map] in E; injection E as -> -> ->; repeat f_equal; ring.
  - intros x Lx; destruct (len3 x) as (x0 & x1 & x2 & ->); [unfold len; rewrite Lx; reflexivity|].
    unfold determinant, upto, minor, full, LinSpec.total; cbn [seq map fold_right map2 app Nat.mul Nat.add nth Nat.ltb Nat.leb pow]; ring.
Qed.
Print Assumptions C74_cross.

Theorem C74_antisymmetric :
  forall (a b : Serie R) ra rb,
  repr a 3 ra -> repr b 3 rb -> ra <> [] -> length ra = length rb ->
  exists rows, @cross R r_num a b = Ok (mk 3 rows 3) /\ @cross R r_num b a = Ok (mk 3 (map (map Ropp) rows) 3).
Proof.
  intros a b ra rb Ha Hb Hne Hl; exists (map2 (@crossp R r_num) ra rb).
  assert (Hne' : rb <> []) by (destruct ra; [congruence|destruct rb; discriminate]).
  split; [apply cross_ok; auto; lia|]; rewrite (cross_ok R r_num b a rb ra Hb Ha Hne' ltac:(lia)); do 2 f_equal.
  pose proof (repr_rows _ _ _ Ha) as Ra; pose proof (repr_rows _ _ _ Hb) as Rb; clear - Ra Rb Hl.
  revert rb Rb Hl; induction ra as [|u ra IH]; intros [|v rb] Rb Hl; try discriminate; [reflexivity|]; cbn [map2 map].
  inversion Ra as [|? ? Lu Ra']; inversion Rb as [|? ? Lv Rb']; subst; f_equal; [|apply IH; auto].
  destruct (len3 u Lu) as (u0 & u1 & u2 & ->); destruct (len3 v Lv) as (v0 & v1 & v2 & ->).
  cbn [crossp n_sub n_mul r_num map]; repeat f_equal; ring.
Qed.
Print Assumptions C74_antisymmetric.

Theorem C74_refused :
  forall (T : Type) (NT : Num T) (a b : Serie T),
  isValid a = false \/ isValid b = false \/ itemSize a <> 3 \/ itemSize b <> 3 -> cross a b = Throw InvalidArgument.
Proof.
  intros T NT a b H; unfold cross; destruct (isValid a), (isValid b); cbn [negb]; try reflexivity.
  destruct (Z.eqb_spec (itemSize a) 3), (Z.eqb_spec (itemSize b) 3); cbn [negb]; try reflexivity.
  destruct H as [H|[H|[H|H]]]; congruence.
Qed.
Print Assumptions C74_refused.

Example C74_ex :
  let a := [[1; 0; 0]; [1; 2; 3]]%R in let b := [[0; 1; 0]; [2; 4; 6]]%R in
  repr (mk 3 a 3) 3 a /\ repr (mk 3 b 3) 3 b /\ @cross R r_num (mk 3 a 3) (mk 3 b 3) = Ok (mk 3 [[0; 0; 1]; [0; 0; 0]]%R 3).
Proof.
  cbv zeta; split; [repr_ex|]; split; [repr_ex|].
  rewrite (cross_ok R r_num _ _ [[1; 0; 0]; [1; 2; 3]]%R [[0; 1; 0]; [2; 4; 6]]%R); [|repr_ex|repr_ex|discriminate|simpl; lia].
  cbn [map2 crossp n_sub n_mul r_num]; repeat f_equal; ring.
Qed.

(** ** C75 *)
Lemma dot_ok (T : Type) (NT : Num T) (a b : Serie T) k ra rb :
  repr a k ra -> repr b k rb -> ra <> [] -> (length ra <= length rb)%nat -> dot a b = Ok (mk 1 (col (map2 sum_prod ra rb)) 3).
Proof.
  intros Ha Hb Hne Hl; unfold dot; rewrite (repr_itemSize _ _ _ Ha).
  pose proof (repr_rows _ _ _ Ha) as Ra; pose proof (repr_rows _ _ _ Hb) as Rb.
  apply (run_map_vv _ a k ra 1 _ Ha Hne); [lia|unfold col; rewrite map_length; apply map2_length_le; exact Hl| |].
  - unfold col; apply Forall_forall; intros z Hz; apply in_map_iff in Hz; destruct Hz as (x & <- & _); reflexivity.
  - intros j r z Er Ez; rewrite nth_error_col in Ez; destruct (nth_error (map2 sum_prod ra rb) j) as [w|] eqn:Ew; [|discriminate].
    injection Ez as <-; destruct (nth_error_map2_le _ _ _ _ _ Ew) as (x & y & Ex & Ey & ->).
    rewrite Er in Ex; injection Ex as <-; unfold lift; rewrite (value_nth b k rb j y Hb Ey); cbn [obind].
    rewrite dot_item_ok; [reflexivity|exact (rows_nth_len k _ _ _ Ra Er)|exact (rows_nth_len k _ _ _ Rb Ey)].
Qed.
Lemma sum_prod_inner u v : @sum_prod R r_num u v = inner u v.
Proof. unfold sum_prod; cbn [n_add n_mul n_of_Z r_num]; rewrite fold_left_sum; unfold inner, sumR, LinSpec.total; lra. Qed.

Lemma inner_sym u v : inner u v = inner v u.
Proof.
  unfold inner; f_equal; revert v; induction u as [|x u IH]; intros [|y v]; cbn [map2]; try reflexivity; f_equal; [ring|apply IH].
Qed.
Lemma inner_linear t u u' v : length u = length u' -> length u = length v ->
  inner (map2 (fun x y => t * x + y)%R u u') v = (t * inner u v + inner u' v)%R.
Proof.
  unfold inner, LinSpec.total; revert u' v; induction u as [|x u IH]; intros [|x' u'] [|y v] H1 H2; try discriminate; cbn [map2 fold_right]; [ring|].
  rewrite IH by (simpl in *; lia); ring.
Qed.
Lemma inner_pos u : (0 <= inner u u)%R /\ (inner u u = 0%R -> Forall (eq 0%R) u).
Proof.
  unfold inner, LinSpec.total; induction u as [|x u [P Z0]]; cbn [map2 fold_right]; [split; [lra|constructor]|].
  pose proof (Rle_0_sqr x) as Q; unfold Rsqr in Q; split; [lra|intros E; constructor; [|apply Z0; lra]].
  assert (Q0 : (x * x = 0)%R) by lra; apply Rmult_integral in Q0; destruct Q0; congruence.
Qed.
Lemma inner_schwarz u v : length u = length v -> (inner u v * inner u v <= inner u u * inner v v)%R.
Proof. intros H; exact (cauchy_schwarz (fun x => x) (fun x => x) u v H). Qed.

Theorem C75_dot :
  forall (a b : Serie R) k ra rb,
  repr a k ra -> repr b k rb -> ra <> [] -> length ra = length rb ->
  @dot R r_num a b = Ok (mk 1 (col (map2 inner ra rb)) 3) /\
  @dot R r_num a b = @dot R r_num b a /\
  @dot R r_num a a = Ok (mk 1 (col (map (fun u => inner u u) ra)) 3) /\
  (forall u v, In u ra -> In v rb ->
     (0 <= inner u u)%R /\ (inner u u = 0%R -> Forall (eq 0%R) u) /\ (inner u v * inner u v <= inner u u * inner v v)%R /\
     forall t u', length u' = length u -> inner (map2 (fun x y => t * x + y)%R u u') v = (t * inner u v + inner u' v)%R).
Proof.
  intros a b k ra rb Ha Hb Hne Hl.
  assert (Hne' : rb <> []) by (destruct ra; [congruence|destruct rb; discriminate]).
  assert (E : forall x y : list (list R), map2 (@sum_prod R r_num) x y = map2 inner x y).
  { induction x as [|u x IH]; intros [|v y]; cbn [map2]; try reflexivity; rewrite sum_prod_inner, IH; reflexivity. }
  pose proof (repr_rows _ _ _ Ha) as Ra; pose proof (repr_rows _ _ _ Hb) as Rb.
  split; [|split; [|split]].
  - rewrite (dot_ok R r_num a b k ra rb Ha Hb Hne ltac:(lia)), E; reflexivity.
  - rewrite (dot_ok R r_num a b k ra rb Ha Hb Hne ltac:(lia)), (dot_ok R r_num b a k rb ra Hb Ha Hne' ltac:(lia)), !E; do 3 f_equal.
    clear; revert rb; induction ra as [|u ra IH]; intros [|v rb]; cbn [map2]; try reflexivity; rewrite inner_sym, IH; reflexivity.
  - rewrite (dot_ok R r_num a a k ra ra Ha Ha Hne ltac:(lia)), E; do 3 f_equal.
    clear; induction ra as [|u ra IH]; cbn [map2 map]; [reflexivity|rewrite IH; reflexivity].
  - intros u v Hu Hv; unfold rows_of_size in Ra, Rb; rewrite Forall_forall in Ra, Rb; pose proof (Ra u Hu) as Lu; pose proof (Rb v Hv) as Lv.
    unfold len in Lu, Lv; destruct (inner_pos u) as [P0 P1]; split; [exact P0|]; split; [exact P1|]; split; [apply inner_schwarz; lia|].
    intros t u' Lu'; apply inner_linear; lia.
Qed.
Print Assumptions C75_dot.

Theorem C75_symmetric_bits :
  forall (L : Libm) (a b : Serie F64) k ra rb,
  repr a k ra -> repr b k rb -> ra <> [] -> length ra = length rb -> @dot F64 (f64_num L) a b = @dot F64 (f64_num L) b a.
Proof.
  intros L a b k ra rb Ha Hb Hne Hl.
  assert (Hne' : rb <> []) by (destruct ra; [congruence|destruct rb; discriminate]).
  rewrite (dot_ok F64 (f64_num L) a b k ra rb Ha Hb Hne ltac:(lia)), (dot_ok F64 (f64_num L) b a k rb ra Hb Ha Hne' ltac:(lia)); do 3 f_equal.
  clear; revert rb; induction ra as [|u ra IH]; intros [|v rb]; cbn [map2]; try reflexivity; f_equal; [|apply IH].
  unfold sum_prod; f_equal; revert v; induction u as [|x u IHu]; intros [|y v]; cbn [map2]; try reflexivity; f_equal; [apply f64_mul_comm|apply IHu].
Qed.
Print Assumptions C75_symmetric_bits.

Theorem C75_fixed_vector :
  forall (T : Type) (NT : Num T) (a c : Serie T) k ra v,
  repr a k ra -> ra <> [] -> len v = k -> repr c k (map (fun _ => v) ra) -> dot_array a v = dot a c.
Proof.
  intros T NT a c k ra v Ha Hne Lv Hc.
  assert (Hl : (length ra <= length (map (fun _ => v) ra))%nat) by (rewrite map_length; lia).
  rewrite (dot_ok T NT a c k ra _ Ha Hc Hne Hl); unfold dot_array.
  destruct ra as [|r0 ra]; [congruence|].
  pose proof (repr_rows _ _ _ Ha) as Ra.
  assert (E0 : value a 0 = Ok r0) by (exact (value_nth a k (r0 :: ra) 0 r0 Ha eq_refl)).
  rewrite E0; cbn [obind]; assert (L0 : len r0 = k) by (inversion Ra; assumption).
  rewrite L0, Lv, Z.eqb_refl; cbn [negb]; rewrite (repr_itemSize _ _ _ Ha).
  rewrite (map_rows_ok a k (r0 :: ra) (fun arr => dot_item k arr v) (fun arr => [sum_prod arr v]) 1 Ha Hne); [|lia|].
  - do 2 f_equal; unfold col; rewrite <- (map_map (fun arr => sum_prod arr v) (fun x => [x])); f_equal.
    clear; generalize (r0 :: ra); induction l as [|u l IH]; cbn [map map2]; [reflexivity|rewrite IH; reflexivity].
  - intros r Hr; unfold rows_of_size in Ra; rewrite Forall_forall in Ra; rewrite dot_item_ok; [split; reflexivity|apply Ra; exact Hr|exact Lv].
Qed.
Print Assumptions C75_fixed_vector.

Example C75_ex :
  let a := [[1; 2]; [3; 4]]%R in let b := [[5; 6]; [7; 8]]%R in
  repr (mk 2 a 3) 2 a /\ repr (mk 2 b 3) 2 b /\ @dot R r_num (mk 2 a 3) (mk 2 b 3) = Ok (mk 1 (col [17; 53]%R) 3) /\
  repr (mk 2 [[5; 6]; [5; 6]]%R 3) 2 (map (fun _ => [5; 6]%R) a).
Proof.
  cbv zeta; split; [repr_ex|]; split; [repr_ex|]; split; [|repr_ex].
  destruct (C75_dot (mk 2 [[1; 2]; [3; 4]]%R 3) (mk 2 [[5; 6]; [7; 8]]%R 3) 2 [[1; 2]; [3; 4]]%R [[5; 6]; [7; 8]]%R) as [E _]; [repr_ex|repr_ex|discriminate|reflexivity|].
  rewrite E; unfold inner, LinSpec.total; cbn [map2 fold_right]; repeat f_equal; ring.
Qed.

(** ** C76: one vector only *)
Theorem C76_single_partial :
  forall (s : Serie R) k u,
  repr s k [u] -> 2 <= k ->
  @norm2 R r_num s = Ok (mk 1 (col [inner u u]) 3) /\ @norm R r_num s = Ok (mk 1 (col [sqrt (inner u u)]) 3).
Proof.
  intros s k u Hs Hk.
  assert (N2 : @norm2 R r_num s = Ok (mk 1 (col [inner u u]) 3)).
  { unfold norm2; rewrite (isValid_repr _ _ _ Hs), (repr_itemSize _ _ _ Hs), (repr_count _ _ _ Hs).
    destruct (Z.ltb_spec 0 k); [|lia]; destruct (Z.eqb_spec k 1); [lia|]; cbn [negb].
    change (iota (len [u])) with [0]; cbn [foldO].
    assert (E0 : value s 0 = Ok u) by (exact (value_nth s k [u] 0 u Hs eq_refl)).
    rewrite E0; cbn [obind]; rewrite sq_loop, sum_prod_inner; reflexivity. }
  split; [exact N2|]; unfold norm; rewrite N2; cbn [obind].
  rewrite (map_rows_ok _ 1 (col [inner u u]) _ (fun a => [sqrt (nth 0 a 0%R)]) 1); [reflexivity|repr_ex|discriminate|lia|].
  intros r [<-|[]]; split; reflexivity.
Qed.
Print Assumptions C76_single_partial.

(** two vectors: the result array has one element; a scalar Serie is returned as it is; no vector: one number *)
Theorem C76_refuted :
  (forall (T : Type) (NT : Num T) (a b c d : T), norm2 (mk 2 [[a; b]; [c; d]] 3) = UB /\ norm (mk 2 [[a; b]; [c; d]] 3) = UB) /\
  (exists x : R, @norm2 R r_num (mk 1 (col [x]) 3) = Ok (mk 1 (col [x]) 3) /\ x <> inner [x] [x]) /\
  (@norm2 R r_num (mk 2 [] 3) = Ok (mk 1 (col [0%R]) 3)).
Proof.
  split; [intros; split; reflexivity|]; split; [|reflexivity].
  exists 3%R; split; [reflexivity|unfold inner, LinSpec.total; cbn [map2 fold_right]; lra].
Qed.
Print Assumptions C76_refuted.

Example C76_ex : repr (mk 2 [[3; 4]]%R 3) 2 [[3; 4]]%R. Proof. repr_ex. Qed.

(** ** C80 *)
(** the component of row [i] and column [j] *)
Definition comp {T} (n i j : nat) (v : list T) : option T := nth_error v (i * n + j).

Theorem C80_transpose :
  forall (T : Type) (NT : Num T) (s : Serie T) n rows,
  (n = 2 \/ n = 3)%nat -> repr s (Z.of_nat (n * n)) rows -> rows <> [] ->
  exists rows', transpose s = Ok (mk (Z.of_nat (n * n)) rows' 3) /\ length rows' = length rows /\
    (forall p v w, nth_error rows p = Some v -> nth_error rows' p = Some w ->
       length w = (n * n)%nat /\ forall i j, (i < n)%nat -> (j < n)%nat -> comp n i j w = comp n j i v) /\
    transpose (mk (Z.of_nat (n * n)) rows' 3) = Ok (mk (Z.of_nat (n * n)) rows 3).
Proof.
  intros T NT s n rows Hn Hs Hne.
  assert (G : forall (s : Serie T) rows, repr s (Z.of_nat (n * n)) rows -> rows <> [] ->
    exists g : list T -> list T, transpose s = Ok (mk (Z.of_nat (n * n)) (map g rows) 3) /\
      (forall v, len v = Z.of_nat (n * n) -> len (g v) = Z.of_nat (n * n) /\ g (g v) = v /\
        forall i j, (i < n)%nat -> (j < n)%nat -> comp n i j (g v) = comp n j i v)).
  { clear s rows Hs Hne; intros s rows Hs Hne; pose proof (repr_rows _ _ _ Hs) as Rr; unfold rows_of_size in Rr; rewrite Forall_forall in Rr.
    unfold transpose; rewrite (repr_itemSize _ _ _ Hs).
    destruct Hn as [-> | ->].
    - change (Z.of_nat (2 * 2)) with 4 in *; cbn [Z.eqb Pos.eqb negb andb].
      exists (fun v => match v with [a; b; c; d] => [a; c; b; d] | _ => [] end); split.
      + apply (map_rows_ok s 4 rows _ _ 4 Hs Hne ltac:(lia)); intros r Hr; destruct (len4 r (Rr r Hr)) as (? & ? & ? & ? & ->); split; reflexivity.
      + intros v Lv; destruct (len4 v Lv) as (? & ? & ? & ? & ->); split; [reflexivity|]; split; [reflexivity|].
        intros [|[|i]] [|[|j]] Hi Hj; try lia; reflexivity.
    - change (Z.of_nat (3 * 3)) with 9 in *; cbn [Z.eqb Pos.eqb negb andb].
      exists (fun v => match v with [a; b; c; d; e; f; g; h; i] => [a; d; g; b; e; h; c; f; i] | _ => [] end); split.
      + apply (map_rows_ok s 9 rows _ _ 9 Hs Hne ltac:(lia)); intros r Hr; destruct (len9 r (Rr r Hr)) as (? & ? & ? & ? & ? & ? & ? & ? & ? & ->); split; reflexivity.
      + intros v Lv; destruct (len9 v Lv) as (? & ? & ? & ? & ? & ? & ? & ? & ? & ->); split; [reflexivity|]; split; [reflexivity|].
        intros [|[|[|i]]] [|[|[|j]]] Hi Hj; try lia; reflexivity. }
  pose proof (repr_rows _ _ _ Hs) as Rr; unfold rows_of_size in Rr; rewrite Forall_forall in Rr.
  destruct (G s rows Hs Hne) as (g & E & P); exists (map g rows); split; [exact E|]; split; [apply map_length|]; split.
  - intros p v w Ev Ew; rewrite nth_error_map, Ev in Ew; injection Ew as <-.
    destruct (P v (Rr v (nth_error_In _ _ Ev))) as (L & _ & C); split; [unfold len in L; lia|exact C].
  - assert (Hs' : repr (mk (Z.of_nat (n * n)) (map g rows) 3) (Z.of_nat (n * n)) (map g rows)).
    { apply repr_mk.
      - apply Forall_forall; intros w Hw; apply in_map_iff in Hw; destruct Hw as (v & <- & Hv); apply P, Rr, Hv.
      - destruct Hn as [-> | ->]; lia.
      - rewrite len_map; unfold repr in Hs; tauto.
      - rewrite len_map; unfold repr in Hs; tauto. }
    destruct (G _ _ Hs' ltac:(destruct rows; [congruence|discriminate])) as (g' & E' & P').
    rewrite E'; do 2 f_equal; rewrite map_map; transitivity (map (fun v => v) rows); [|apply map_id].
    apply map_ext_in; intros v Hv; destruct (P v (Rr v Hv)) as (L & _ & C); destruct (P' (g v) L) as (L' & _ & C').
    specialize (Rr v Hv); clear - Rr L L' C C' Hn.
    assert (Q : forall i j, (i < n)%nat -> (j < n)%nat -> comp n i j (g' (g v)) = comp n i j v) by (intros i j Hi Hj; rewrite C', C; auto).
    set (w := g' (g v)) in *; clearbody w; clear - Q Rr L' Hn.
    destruct Hn as [-> | ->].
    + change (Z.of_nat (2 * 2)) with 4 in *; destruct (len4 v Rr) as (a & b & c & d & ->); destruct (len4 w L') as (a' & b' & c' & d' & ->).
      pose proof (Q 0 0 ltac:(lia) ltac:(lia))%nat; pose proof (Q 0 1 ltac:(lia) ltac:(lia))%nat; pose proof (Q 1 0 ltac:(lia) ltac:(lia))%nat; pose proof (Q 1 1 ltac:(lia) ltac:(lia))%nat.
      unfold comp in *; cbn in *; congruence.
    + change (Z.of_nat (3 * 3)) with 9 in *; destruct (len9 v Rr) as (? & ? & ? & ? & ? & ? & ? & ? & ? & ->); destruct (len9 w L') as (? & ? & ? & ? & ? & ? & ? & ? & ? & ->).
      pose proof (Q 0 0 ltac:(lia) ltac:(lia))%nat; pose proof (Q 0 1 ltac:(lia) ltac:(lia))%nat; pose proof (Q 0 2 ltac:(lia) ltac:(lia))%nat.
      pose proof (Q 1 0 ltac:(lia) ltac:(lia))%nat; pose proof (Q 1 1 ltac:(lia) ltac:(lia))%nat; pose proof (Q 1 2 ltac:(lia) ltac:(lia))%nat.
      pose proof (Q 2 0 ltac:(lia) ltac:(lia))%nat; pose proof (Q 2 1 ltac:(lia) ltac:(lia))%nat; pose proof (Q 2 2 ltac:(lia) ltac:(lia))%nat.
      unfold comp in *; cbn in *; congruence.
Qed.
Print Assumptions C80_transpose.

Theorem C80_refused :
  forall (T : Type) (NT : Num T) (s : Serie T), itemSize s <> 4 -> itemSize s <> 9 -> transpose s = Throw InvalidArgument.
Proof.
  intros T NT s H4 H9; unfold transpose; destruct (Z.eqb_spec (itemSize s) 4); [congruence|]; destruct (Z.eqb_spec (itemSize s) 9); [congruence|]; reflexivity.
Qed.
Print Assumptions C80_refused.

Example C80_ex : repr (mk 4 [[#1; #2; #3; #4]] 3) (Z.of_nat (2 * 2)) [[#1; #2; #3; #4]] /\
  @transpose F64 F64N (mk 4 [[#1; #2; #3; #4]] 3) = Ok (mk 4 [[#1; #3; #2; #4]] 3).
Proof. split; [repr_ex|reflexivity]. Qed.
