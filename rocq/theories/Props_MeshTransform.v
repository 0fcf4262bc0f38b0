(** * C144: normals of moved, scaled and closed meshes. *)
From Verif Require Import Base Num Serie Spec BaseFacts SerieFacts Functional FunctionalFacts Mathf MathFacts MinMaxFacts StatsFacts Stats Algebra AlgebraFacts Geo ViewFacts.
From Verif Require Import RNum LinSpec Props_Functional Props_MultDiv Props_Mean Props_Algebra Props_Geo.
From Coq Require Import Reals Lra Permutation.
Open Scope Z_scope.

(** p |-> M p + c *)
Definition affine (M : Mat) (c p : list R) : list R := map2 Rplus (mat_vec 3 M p) c.
Lemma affine_3 M c p : len c = 3 -> len (affine M c p) = 3.
Proof. intros H; destruct (len3 c H) as (c0 & c1 & c2 & ->); reflexivity. Qed.
Lemma corner_affine M c ps i : (i < length ps)%nat -> nth i (map (affine M c) ps) [] = affine M c (nth i ps []).
Proof. intros H; rewrite (nth_indep _ [] (affine M c [])) by (rewrite map_length; exact H); apply map_nth. Qed.
Lemma normal_affine M c p q r : len c = 3 -> len p = 3 -> len q = 3 -> len r = 3 ->
  mat_vec 3 (mat_t M) (@normal3 R r_num (affine M c p) (affine M c q) (affine M c r)) = map (Rmult (determinant 3 M)) (@normal3 R r_num p q r).
Proof.
  intros Lc Lp Lq Lr; destruct (len3 c Lc) as (c0 & c1 & c2 & ->); destruct (len3 p Lp) as (p0 & p1 & p2 & ->);
    destruct (len3 q Lq) as (q0 & q1 & q2 & ->); destruct (len3 r Lr) as (r0 & r1 & r2 & ->).
  unfold normal3, affine, mat_vec, upto, LinSpec.total; cbn [seq map map2 fold_right nth sub3 cross3 n_sub n_mul r_num].
  unfold determinant, upto, minor, LinSpec.total, mat_t; cbn [seq map fold_right pow Nat.ltb Nat.leb]; apply list3; ring.
Qed.
Theorem C144_affine :
  forall (positions positions' indices : Serie R) ps (ts : list tri) M c,
  repr positions 3 ps -> repr positions' 3 (map (affine M c) ps) -> repr indices 3 (map tri_row ts) -> Forall (tri_in (length ps)) ts -> len c = 3 ->
  exists ns ns', @normals R r_num positions indices = Ok (mk 3 ns 3) /\ @normals R r_num positions' indices = Ok (mk 3 ns' 3) /\
    Forall2 (fun n n' => mat_vec 3 (mat_t M) n' = map (Rmult (determinant 3 M)) n) ns ns'.
Proof.
  intros positions positions' indices ps ts M c Hp Hp' Hi Ht Lc; do 2 eexists.
  split; [apply (normals_R positions indices ps ts Hp Hi Ht)|]; split; [apply (normals_R positions' indices _ ts Hp' Hi); rewrite map_length; exact Ht|].
  pose proof (repr_rows _ _ _ Hp) as Rr; unfold rows_of_size in Rr; rewrite Forall_forall in Rr.
  clear Hi; induction Ht as [|t ts H _ IH]; cbn [map]; constructor; [|exact IH].
  destruct t as [[i j] k]; destruct H as (H1 & H2 & H3); cbn [corner1 corner2 corner3]; rewrite !corner_affine by assumption.
  apply normal_affine; [exact Lc| | |]; apply Rr, nth_In; assumption.
Qed.
Print Assumptions C144_affine.

Lemma mat_vec_id v : len v = 3 -> mat_vec 3 mat_id v = v.
Proof. intros H; destruct (len3 v H) as (a & b & c & ->); unfold mat_vec, upto, LinSpec.total, mat_id; cbn [seq map fold_right nth Nat.eqb]; apply list3; ring. Qed.
Lemma mat_vec_mul M N v : len v = 3 -> mat_vec 3 M (mat_vec 3 N v) = mat_vec 3 (mat_mul 3 M N) v.
Proof.
  intros H; destruct (len3 v H) as (a & b & c & ->); unfold mat_mul, mat_vec, upto, LinSpec.total; cbn [seq map fold_right nth]; apply list3; ring.
Qed.
Lemma mat_vec_ext M N v : mat_eq 3 M N -> mat_vec 3 M v = mat_vec 3 N v.
Proof.
  intros H; unfold mat_vec, upto, LinSpec.total; cbn [seq map fold_right].
  rewrite !(H 0%nat), !(H 1%nat), !(H 2%nat) by lia; reflexivity.
Qed.
Lemma mat_vec_len M v : len (mat_vec 3 M v) = 3. Proof. reflexivity. Qed.
Lemma mat_vec_scal M d v : len v = 3 -> mat_vec 3 M (map (Rmult d) v) = map (Rmult d) (mat_vec 3 M v).
Proof.
  intros H; destruct (len3 v H) as (a & b & c & ->); unfold mat_vec, upto, LinSpec.total; cbn [seq map fold_right nth]; apply list3; ring.
Qed.
Lemma det_orthogonal M : mat_eq 3 (mat_mul 3 M (mat_t M)) mat_id -> (determinant 3 M * determinant 3 M = 1)%R.
Proof.
  intros H.
  assert (D : (determinant 3 (mat_mul 3 M (mat_t M)) = determinant 3 M * determinant 3 M)%R).
  { unfold determinant, upto, minor, LinSpec.total, mat_mul, mat_t, upto, LinSpec.total; cbn [seq map fold_right pow Nat.ltb Nat.leb]; ring. }
  assert (E : (determinant 3 (mat_mul 3 M (mat_t M)) = determinant 3 mat_id)%R).
  { revert H; generalize (mat_mul 3 M (mat_t M)); intros A H; unfold determinant, upto, minor, LinSpec.total; cbn [seq map fold_right pow Nat.ltb Nat.leb].
    rewrite !(H 0%nat), !(H 1%nat), !(H 2%nat) by lia; reflexivity. }
  rewrite <- D, E; unfold determinant, upto, minor, LinSpec.total, mat_id; cbn [seq map fold_right pow Nat.ltb Nat.leb Nat.eqb]; ring.
Qed.
(** rotations turn the normals with the mesh, reflections turn them over as well, and lengths stay *)
Theorem C144_rigid :
  forall (positions positions' indices : Serie R) ps (ts : list tri) M c,
  repr positions 3 ps -> repr positions' 3 (map (affine M c) ps) -> repr indices 3 (map tri_row ts) -> Forall (tri_in (length ps)) ts -> len c = 3 ->
  mat_eq 3 (mat_mul 3 M (mat_t M)) mat_id ->
  (determinant 3 M = 1 \/ determinant 3 M = -1)%R /\
  exists ns, @normals R r_num positions indices = Ok (mk 3 ns 3) /\
    @normals R r_num positions' indices = Ok (mk 3 (map (fun n => map (Rmult (determinant 3 M)) (mat_vec 3 M n)) ns) 3).
Proof.
  intros positions positions' indices ps ts M c Hp Hp' Hi Ht Lc O; split.
  { pose proof (det_orthogonal M O) as D; assert (((determinant 3 M - 1) * (determinant 3 M + 1) = 0)%R) as Q by (ring_simplify; lra).
    apply Rmult_integral in Q; destruct Q; [left|right]; lra. }
  exists (map (fun t => @normal3 R r_num (corner1 ps t) (corner2 ps t) (corner3 ps t)) ts); split; [apply (normals_R positions indices ps ts Hp Hi Ht)|].
  rewrite (normals_R positions' indices _ ts Hp' Hi) by (rewrite map_length; exact Ht); rewrite map_map; do 2 f_equal; apply map_ext_in; intros t Hin.
  rewrite Forall_forall in Ht; specialize (Ht t Hin); clear Hin.
  pose proof (repr_rows _ _ _ Hp) as Rr; unfold rows_of_size in Rr; rewrite Forall_forall in Rr.
  destruct t as [[i j] k]; destruct Ht as (H1 & H2 & H3); cbn [corner1 corner2 corner3]; rewrite !corner_affine by assumption.
  pose proof (Rr _ (nth_In ps [] H1)) as L1; pose proof (Rr _ (nth_In ps [] H2)) as L2; pose proof (Rr _ (nth_In ps [] H3)) as L3.
  pose proof (normal_affine M c _ _ _ Lc L1 L2 L3) as E; revert E.
  set (n' := @normal3 R r_num (affine M c _) _ _); set (n := @normal3 R r_num _ _ _); intros E.
  assert (Ln : len n = 3) by (unfold n; destruct (len3 _ L1) as (? & ? & ? & ->); destruct (len3 _ L2) as (? & ? & ? & ->); destruct (len3 _ L3) as (? & ? & ? & ->); reflexivity).
  assert (Ln' : len n' = 3).
  { unfold n'; destruct (len3 _ (affine_3 M c (nth i ps []) Lc)) as (? & ? & ? & ->); destruct (len3 _ (affine_3 M c (nth j ps []) Lc)) as (? & ? & ? & ->);
      destruct (len3 _ (affine_3 M c (nth k ps []) Lc)) as (? & ? & ? & ->); reflexivity. }
  rewrite <- mat_vec_scal by exact Ln; rewrite <- E, mat_vec_mul by exact Ln'; rewrite (mat_vec_ext _ _ _ O), mat_vec_id by exact Ln'; reflexivity.
Qed.
Print Assumptions C144_rigid.
Lemma normals_mapped (positions positions' indices : Serie R) ps ts g h :
  (forall p q r, len p = 3 -> len q = 3 -> len r = 3 -> @normal3 R r_num (g p) (g q) (g r) = h (@normal3 R r_num p q r)) ->
  repr positions 3 ps -> repr positions' 3 (map g ps) -> repr indices 3 (map tri_row ts) -> Forall (tri_in (length ps)) ts ->
  let ns := map (fun t => @normal3 R r_num (corner1 ps t) (corner2 ps t) (corner3 ps t)) ts in
  @normals R r_num positions indices = Ok (mk 3 ns 3) /\ @normals R r_num positions' indices = Ok (mk 3 (map h ns) 3).
Proof.
  intros Hg Hp Hp' Hi Ht; cbv zeta; split; [apply (normals_R positions indices ps ts Hp Hi Ht)|].
  rewrite (normals_R positions' indices _ ts Hp' Hi) by (rewrite map_length; exact Ht); rewrite map_map; do 2 f_equal; apply map_ext_in; intros t Hin.
  rewrite Forall_forall in Ht; specialize (Ht t Hin); clear Hin.
  pose proof (repr_rows _ _ _ Hp) as Rr; unfold rows_of_size in Rr; rewrite Forall_forall in Rr.
  destruct t as [[i j] k]; destruct Ht as (H1 & H2 & H3); cbn [corner1 corner2 corner3].
  assert (N : forall q, (q < length ps)%nat -> nth q (map g ps) [] = g (nth q ps [])).
  { intros q Hq; rewrite (nth_indep _ [] (g [])) by (rewrite map_length; exact Hq); apply map_nth. }
  rewrite !N by assumption; apply Hg; apply Rr, nth_In; assumption.
Qed.
Theorem C144_translation :
  forall (positions positions' indices : Serie R) ps (ts : list tri) c,
  repr positions 3 ps -> repr positions' 3 (map (fun p => map2 Rplus p c) ps) -> repr indices 3 (map tri_row ts) -> Forall (tri_in (length ps)) ts -> len c = 3 ->
  exists ns, @normals R r_num positions indices = Ok ns /\ @normals R r_num positions' indices = Ok ns.
Proof.
  intros positions positions' indices ps ts c Hp Hp' Hi Ht Lc.
  destruct (normals_mapped positions positions' indices ps ts (fun p => map2 Rplus p c) (fun n => n)) as [E1 E2]; try assumption.
  - intros p q r Lp Lq Lr; destruct (len3 c Lc) as (c0 & c1 & c2 & ->); destruct (len3 p Lp) as (p0 & p1 & p2 & ->);
      destruct (len3 q Lq) as (q0 & q1 & q2 & ->); destruct (len3 r Lr) as (r0 & r1 & r2 & ->).
    unfold normal3; cbn [map2 sub3 cross3 n_sub n_mul r_num]; apply list3; ring.
  - eexists; split; [exact E1|]; rewrite E2, map_id; reflexivity.
Qed.
Print Assumptions C144_translation.
(** a mesh scaled by k has its normals scaled by k * k *)
Theorem C144_scale :
  forall (positions indices : Serie R) ps (ts : list tri) k,
  repr positions 3 ps -> repr indices 3 (map tri_row ts) -> ts <> [] -> Forall (tri_in (length ps)) ts ->
  exists positions' ns, @scale R r_num positions k = Ok positions' /\ @normals R r_num positions indices = Ok ns /\
    @normals R r_num positions' indices = @scale R r_num ns (k * k)%R.
Proof.
  intros positions indices ps ts k Hp Hi Hnt Ht.
  assert (Hne : ps <> []).
  { intros ->; destruct ts as [|t ts]; [congruence|]; inversion Ht as [|? ? H _]; destruct t as [[a b] c]; cbn in H; lia. }
  assert (Es : @scale R r_num positions k = Ok (mk 3 (map (map (fun x => x * k)%R) ps) 3)) by (apply (@scale_ok R r_num positions 3 ps k Hp Hne); lia).
  assert (B : forall (A : Type) (g : list R -> A) (l : list (list R)), len (map g l) = len l) by (intros; unfold len; rewrite map_length; reflexivity).
  assert (Bp : repr (mk 3 (map (map (fun x => x * k)%R) ps) 3) 3 (map (map (fun x => x * k)%R) ps)).
  { pose proof (repr_rows _ _ _ Hp) as Rr; unfold rows_of_size in Rr; rewrite Forall_forall in Rr.
    assert (Hm : 3 * len ps < 4294967296) by apply Hp.
    apply repr_mk; [|lia|rewrite B; pose proof (len_nonneg ps); lia|rewrite B; exact Hm].
    apply Forall_forall; intros r Hr; apply in_map_iff in Hr; destruct Hr as (q & <- & Hq); unfold len; rewrite map_length; apply Rr; exact Hq. }
  destruct (normals_mapped positions (mk 3 (map (map (fun x => x * k)%R) ps) 3) indices ps ts (map (fun x => x * k)%R) (map (fun x => x * (k * k))%R)) as [E1 E2]; try assumption.
  { intros p q r Lp Lq Lr; destruct (len3 p Lp) as (p0 & p1 & p2 & ->); destruct (len3 q Lq) as (q0 & q1 & q2 & ->); destruct (len3 r Lr) as (r0 & r1 & r2 & ->).
    unfold normal3; cbn [map map2 sub3 cross3 n_sub n_mul r_num]; apply list3; ring. }
  do 2 eexists; split; [exact Es|]; split; [exact E1|]; rewrite E2; symmetry; apply (@scale_ok R r_num); [|destruct ts; [congruence|discriminate]|lia].
  pose proof (repr_rows _ _ _ Hp) as Rr; unfold rows_of_size in Rr; rewrite Forall_forall in Rr.
  assert (Hm : 3 * len (map tri_row ts) < 4294967296) by apply Hi; unfold len in Hm; rewrite map_length in Hm.
  apply repr_mk; [|lia|unfold len; rewrite map_length; lia|unfold len; rewrite map_length; exact Hm].
  apply Forall_forall; intros n Hn; apply in_map_iff in Hn; destruct Hn as (t & <- & Hin); rewrite Forall_forall in Ht; specialize (Ht t Hin).
  destruct t as [[i j] l]; destruct Ht as (H1 & H2 & H3); cbn [corner1 corner2 corner3].
  destruct (len3 _ (Rr _ (nth_In ps [] H1))) as (? & ? & ? & ->); destruct (len3 _ (Rr _ (nth_In ps [] H2))) as (? & ? & ? & ->); destruct (len3 _ (Rr _ (nth_In ps [] H3))) as (? & ? & ? & ->); reflexivity.
Qed.
Print Assumptions C144_scale.

(** ** Closed surfaces *)
(** the directed sides of a triangle; every side is met as often in one direction as in the other *)
Definition sides (t : tri) : list (nat * nat) := let '(i, j, k) := t in [(i, j); (j, k); (k, i)].
Definition side_dec (e e' : nat * nat) : {e = e'} + {e <> e'}.
Proof. decide equality; apply Nat.eq_dec. Defined.
Definition closed (ts : list tri) : Prop :=
  forall i j, count_occ side_dec (flat_map sides ts) (i, j) = count_occ side_dec (flat_map sides ts) (j, i).
Definition flip (e : nat * nat) : nat * nat := (snd e, fst e).

Lemma count_flip l i j : count_occ side_dec (map flip l) (i, j) = count_occ side_dec l (j, i).
Proof.
  induction l as [|[a b] l IH]; [reflexivity|]; cbn [map flip fst snd].
  destruct (side_dec (b, a) (i, j)) as [E|N]; destruct (side_dec (a, b) (j, i)) as [E'|N']; try congruence.
  - rewrite (count_occ_cons_eq _ _ E), (count_occ_cons_eq _ _ E'), IH; reflexivity.
  - rewrite (count_occ_cons_neq _ _ N), (count_occ_cons_neq _ _ N'); exact IH.
Qed.
Lemma closed_flip ts : closed ts -> Permutation (flat_map sides ts) (map flip (flat_map sides ts)).
Proof. intros H; apply (Permutation_count_occ side_dec); intros [i j]; rewrite count_flip; apply H. Qed.
Lemma sum_perm l l' : Permutation l l' -> sumR l = sumR l'.
Proof. unfold sumR; induction 1; cbn [fold_right]; lra. Qed.
Lemma sum_app l l' : sumR (l ++ l') = (sumR l + sumR l')%R.
Proof. unfold sumR; induction l; cbn [fold_right app]; lra. Qed.
Lemma sum_opp {A} (g : A -> R) l : sumR (map (fun x => - g x)%R l) = (- sumR (map g l))%R.
Proof. unfold sumR; induction l; cbn [fold_right map]; lra. Qed.
Lemma closed_sum (g : nat * nat -> R) ts : (forall e, g (flip e) = - g e)%R -> closed ts -> sumR (map g (flat_map sides ts)) = 0%R.
Proof.
  intros Hg Hc; pose proof (sum_perm _ _ (Permutation_map g (closed_flip ts Hc))) as E; rewrite map_map in E.
  rewrite (map_ext (fun x => g (flip x)) (fun x => - g x)%R Hg), sum_opp in E; lra.
Qed.
(** the normals of a closed surface add up to zero, and so their mean is zero *)
Theorem C144_closed :
  forall (positions indices : Serie R) ps (ts : list tri),
  repr positions 3 ps -> repr indices 3 (map tri_row ts) -> Forall (tri_in (length ps)) ts -> closed ts ->
  exists ns, @normals R r_num positions indices = Ok (mk 3 ns 3) /\ (forall c, (c < 3)%nat -> sumR (column c ns) = 0%R) /\
    (ts <> [] -> @mean R r_num (mk 3 ns 3) = Ok (Vector [0; 0; 0]%R)).
Proof.
  intros positions indices ps ts Hp Hi Ht Hc; set (ns := map (fun t => @normal3 R r_num (corner1 ps t) (corner2 ps t) (corner3 ps t)) ts).
  pose proof (repr_rows _ _ _ Hp) as Rr; unfold rows_of_size in Rr; rewrite Forall_forall in Rr.
  assert (Z0 : forall c, (c < 3)%nat -> sumR (column c ns) = 0%R).
  { intros c Hc3; set (g := fun e : nat * nat => nth c (@cross3 R r_num (nth (fst e) ps []) (nth (snd e) ps [])) 0%R).
    rewrite <- (closed_sum g ts); [| |exact Hc].
    - clear Hc Hi; unfold column, ns; induction Ht as [|t ts H _ IH]; [reflexivity|]; cbn [map flat_map]; rewrite map_app, sum_app, <- IH; clear IH.
      destruct t as [[i j] k]; destruct H as (H1 & H2 & H3); cbn [corner1 corner2 corner3 sides map].
      unfold g; cbn [fst snd].
      destruct (len3 _ (Rr _ (nth_In ps [] H1))) as (p0 & p1 & p2 & ->); destruct (len3 _ (Rr _ (nth_In ps [] H2))) as (q0 & q1 & q2 & ->); destruct (len3 _ (Rr _ (nth_In ps [] H3))) as (r0 & r1 & r2 & ->).
      unfold normal3; cbn [sub3 map2 cross3 n_sub n_mul r_num]; unfold sumR; cbn [fold_right].
      destruct c as [|[|[|c]]]; try lia; cbn [nth nth_error]; lra.
    - intros [a b]; unfold g, flip; cbn [fst snd].
      destruct (nth a ps []) as [|a0 [|a1 [|a2 [|? ?]]]], (nth b ps []) as [|b0 [|b1 [|b2 [|? ?]]]]; cbn [cross3];
        try (destruct c as [|[|[|c]]]; cbn [nth]; lra).
      destruct c as [|[|[|c]]]; try lia; cbn [nth n_sub n_mul r_num]; ring. }
  exists ns; split; [apply (normals_R positions indices ps ts Hp Hi Ht)|]; split; [exact Z0|]; intros Hne.
  assert (Ln : rows_of_size 3 ns).
  { apply Forall_forall; intros n Hn; apply in_map_iff in Hn; destruct Hn as (t & <- & Hin); rewrite Forall_forall in Ht; specialize (Ht t Hin).
    destruct t as [[i j] l]; destruct Ht as (H1 & H2 & H3); cbn [corner1 corner2 corner3].
    destruct (len3 _ (Rr _ (nth_In ps [] H1))) as (? & ? & ? & ->); destruct (len3 _ (Rr _ (nth_In ps [] H2))) as (? & ? & ? & ->); destruct (len3 _ (Rr _ (nth_In ps [] H3))) as (? & ? & ? & ->); reflexivity. }
  assert (Hm : 3 * len (map tri_row ts) < 4294967296) by apply Hi; unfold len in Hm; rewrite map_length in Hm.
  assert (Hn : repr (mk 3 ns 3) 3 ns) by (apply repr_mk; [exact Ln|lia|unfold len, ns; rewrite map_length; lia|unfold len, ns; rewrite map_length; exact Hm]).
  destruct (C68_vector (mk 3 ns 3) 3 ns Hn ltac:(unfold ns; destruct ts; [congruence|discriminate]) ltac:(lia)) as (ms & E & Lm & Hms & _); rewrite E; do 2 f_equal.
  destruct (len3 ms Lm) as (m0 & m1 & m2 & ->).
  assert (P : (0 < IZR (len ns))%R) by (apply IZR_lt; unfold len, ns; rewrite map_length; destruct ts; [congruence|cbn [length]; lia]).
  apply list3.
  - destruct (Hms 0%nat m0 eq_refl) as [Q _]; rewrite Z0 in Q by lia; apply Rmult_integral in Q; destruct Q; lra.
  - destruct (Hms 1%nat m1 eq_refl) as [Q _]; rewrite Z0 in Q by lia; apply Rmult_integral in Q; destruct Q; lra.
  - destruct (Hms 2%nat m2 eq_refl) as [Q _]; rewrite Z0 in Q by lia; apply Rmult_integral in Q; destruct Q; lra.
Qed.
Print Assumptions C144_closed.

(** without the last triangle the surface is open and the sum is not zero *)
Theorem C144_open_refuted :
  exists (positions indices : Serie R) ps (ts : list tri) ns,
  repr positions 3 ps /\ repr indices 3 (map tri_row ts) /\ Forall (tri_in (length ps)) ts /\
  @normals R r_num positions indices = Ok (mk 3 ns 3) /\ sumR (column 2 ns) <> 0%R.
Proof.
  set (ps := [[0; 0; 0]; [1; 0; 0]; [0; 1; 0]; [0; 0; 1]]%R); set (ts := [(0, 1, 3); (1, 2, 3); (2, 0, 3)]%nat : list tri).
  assert (Hp : repr (mk 3 ps 3) 3 ps) by repr_ex.
  assert (Hi : repr (mk 3 (map tri_row ts) 3) 3 (map tri_row ts)) by repr_ex.
  assert (Ht : Forall (tri_in (length ps)) ts) by (repeat constructor; cbn; lia).
  exists (mk 3 ps 3), (mk 3 (map tri_row ts) 3), ps, ts; eexists; split; [exact Hp|]; split; [exact Hi|]; split; [exact Ht|].
  split; [apply (normals_R _ _ ps ts Hp Hi Ht)|].
  unfold column, sumR, ts, ps; cbn [map nth corner1 corner2 corner3]; unfold normal3; cbn [sub3 map2 cross3 n_sub n_mul r_num nth fold_right]; lra.
Qed.
Print Assumptions C144_open_refuted.

(** a tetrahedron is closed; a quarter turn about the third axis is a rotation *)
Example C144_ex :
  let ts := [(0, 2, 1); (0, 1, 3); (1, 2, 3); (2, 0, 3)]%nat : list tri in
  let ps := [[0; 0; 0]; [1; 0; 0]; [0; 1; 0]; [0; 0; 1]]%R in
  let M := full 3 [0; -1; 0; 1; 0; 0; 0; 0; 1]%R in
  repr (mk 3 ps 3) 3 ps /\ repr (mk 3 (map tri_row ts) 3) 3 (map tri_row ts) /\ Forall (tri_in (length ps)) ts /\ closed ts /\
  mat_eq 3 (mat_mul 3 M (mat_t M)) mat_id /\ determinant 3 M = 1%R /\
  @normals R r_num (mk 3 ps 3) (mk 3 (map tri_row ts) 3) = Ok (mk 3 [[0; 0; -1]; [0; -1; 0]; [1; 1; 1]; [-1; 0; 0]]%R 3).
Proof.
  cbv zeta; split; [repr_ex|]; split; [repr_ex|]; split; [repeat constructor; cbn; lia|]; split.
  - intros i j; cbn [flat_map sides app].
    destruct (Nat.lt_ge_cases i 4) as [Hi|Hi]; destruct (Nat.lt_ge_cases j 4) as [Hj|Hj].
    + destruct i as [|[|[|[|i]]]]; try lia; destruct j as [|[|[|[|j]]]]; try lia; reflexivity.
    + rewrite !(proj1 (count_occ_not_In side_dec _ _)); [reflexivity| |]; cbn; intros H; repeat (destruct H as [H|H]; [injection H as <- <-; lia|]); exact H.
    + rewrite !(proj1 (count_occ_not_In side_dec _ _)); [reflexivity| |]; cbn; intros H; repeat (destruct H as [H|H]; [injection H as <- <-; lia|]); exact H.
    + rewrite !(proj1 (count_occ_not_In side_dec _ _)); [reflexivity| |]; cbn; intros H; repeat (destruct H as [H|H]; [injection H as <- <-; lia|]); exact H.
  - split; [|split].
    + intros [|[|[|i]]] [|[|[|j]]] Hi Hj; try lia; unfold mat_mul, mat_t, mat_id, full, upto, LinSpec.total; cbn; ring.
    + unfold determinant, upto, minor, LinSpec.total, full; cbn; ring.
    + rewrite (normals_R _ _ [[0; 0; 0]; [1; 0; 0]; [0; 1; 0]; [0; 0; 1]]%R [(0, 2, 1); (0, 1, 3); (1, 2, 3); (2, 0, 3)]%nat); [|repr_ex|repr_ex|repeat constructor; cbn; lia].
      do 2 f_equal; cbn [map nth corner1 corner2 corner3]; unfold normal3; cbn [sub3 map2 cross3 n_sub n_mul r_num].
      repeat (apply (f_equal2 cons); [apply list3; ring|]); reflexivity.
Qed.
