(** * C84, C85, C86: normals, areas, insar, fringes. *)
From Verif Require Import Base Num Serie Spec BaseFacts SerieFacts Functional FunctionalFacts Mathf MathFacts MinMaxFacts StatsFacts Algebra AlgebraFacts Geo ViewFacts.
From Verif Require Import RNum LinSpec Props_Functional Props_Algebra.
From Coq Require Import Reals Lra.
From Flocq Require Import Core.Raux.
Open Scope Z_scope.

(** ** Specification *)
(** a triangle: the places of its vertices; how it is stored; the vertices themselves *)
Definition tri : Type := nat * nat * nat.
Definition tri_row (t : tri) : list R := let '(i, j, k) := t in [INR i; INR j; INR k].
Definition tri_in (n : nat) (t : tri) : Prop := let '(i, j, k) := t in (i < n)%nat /\ (j < n)%nat /\ (k < n)%nat.
Definition corner1 (ps : list (list R)) (t : tri) : list R := let '(i, j, k) := t in nth i ps [].
Definition corner2 (ps : list (list R)) (t : tri) : list R := let '(i, j, k) := t in nth j ps [].
Definition corner3 (ps : list (list R)) (t : tri) : list R := let '(i, j, k) := t in nth k ps [].
Definition edge (p q : list R) : list R := map2 Rminus q p.
(** Heron's formula in the squared lengths of the sides *)
Definition heron (p q r : list R) : R :=
  let a := inner (edge p q) (edge p q) in let b := inner (edge q r) (edge q r) in let c := inner (edge r p) (edge r p) in
  (2 * (a * b + b * c + c * a) - (a * a + b * b + c * c))%R.
Definition area (p q r : list R) : R := (sqrt (heron p q r) / 4)%R.

Lemma Forall2_len {A B} (P : A -> B -> Prop) l l' : Forall2 P l l' -> length l = length l'.
Proof. induction 1; cbn [length]; congruence. Qed.

(** ** The loop *)
Section Loop.
  Context {T : Type} {NT : Num T}.

  Definition cross3 (u v : list T) : list T :=
    match u, v with
    | [u0; u1; u2], [v0; v1; v2] => [n_sub (n_mul u1 v2) (n_mul u2 v1); n_sub (n_mul u2 v0) (n_mul u0 v2); n_sub (n_mul u0 v1) (n_mul u1 v0)]
    | _, _ => []
    end.
  Definition sub3 (p q : list T) : list T := map2 n_sub q p.
  Definition normal3 (p q r : list T) : list T := cross3 (sub3 p q) (sub3 p r).
  (** the vertices of a stored triangle *)
  Definition has_corners (positions : Serie T) (t : list T) (pqr : list T * list T * list T) : Prop :=
    let '(p, q, r) := pqr in
    vertex positions t 0 = Ok p /\ vertex positions t 1 = Ok q /\ vertex positions t 2 = Ok r /\ len p = 3 /\ len q = 3 /\ len r = 3.
  Definition normal_at (pqr : list T * list T * list T) : list T := let '(p, q, r) := pqr in normal3 p q r.

  Lemma normal_len positions t pqr : has_corners positions t pqr -> len (normal_at pqr) = 3.
  Proof.
    destruct pqr as [[p q] r]; intros (_ & _ & _ & Lp & Lq & Lr).
    destruct (len3 p Lp) as (? & ? & ? & ->); destruct (len3 q Lq) as (? & ? & ? & ->); destruct (len3 r Lr) as (? & ? & ? & ->); reflexivity.
  Qed.
  Lemma normal_step_ok positions t pqr j pre o0 o1 o2 post p : has_corners positions t pqr -> p = len pre -> len pre + 3 < 4294967296 ->
    normal_step positions t j (pre ++ o0 :: o1 :: o2 :: post, p) = (Ok tt, (pre ++ normal_at pqr ++ post, p + 3)).
  Proof.
    intros H Ep Hp; destruct pqr as [[a b] c]; destruct H as (E1 & E2 & E3 & La & Lb & Lc).
    unfold normal_step; rewrite E1, E2, E3; cbn [obind].
    destruct (len3 a La) as (a0 & a1 & a2 & ->); destruct (len3 b Lb) as (b0 & b1 & b2 & ->); destruct (len3 c Lc) as (c0 & c1 & c2 & ->).
    unfold normal_at, normal3; cbn [sub3 map2 cross3 app].
    set (x := n_sub _ _); set (y := n_sub (n_mul _ (n_sub c0 a0)) _); set (z := n_sub (n_mul _ (n_sub c1 a1)) _).
    change (create [a0; a1; a2] [b0; b1; b2]) with (Ok [n_sub b0 a0; n_sub b1 a1; n_sub b2 a2]).
    change (create [a0; a1; a2] [c0; c1; c2]) with (Ok [n_sub c0 a0; n_sub c1 a1; n_sub c2 a2]); cbn [obind].
    change (geo_cross [n_sub b0 a0; n_sub b1 a1; n_sub b2 a2] [n_sub c0 a0; n_sub c1 a1; n_sub c2 a2]) with (Ok [x; y; z]); cbn [obind].
    change (rd [x; y; z] 0) with (Ok x); change (rd [x; y; z] 1) with (Ok y); change (rd [x; y; z] 2) with (Ok z); cbn [obind].
    pose proof (len_nonneg pre); rewrite !u32_small by lia.
    rewrite wr_mid by exact Ep; cbn [obind].
    replace (pre ++ x :: o1 :: o2 :: post) with ((pre ++ [x]) ++ o1 :: o2 :: post) by (rewrite <- app_assoc; reflexivity).
    rewrite wr_mid by (rewrite len_app; change (len [x]) with 1; lia); cbn [obind].
    replace ((pre ++ [x]) ++ y :: o2 :: post) with ((pre ++ [x; y]) ++ o2 :: post) by (rewrite <- !app_assoc; reflexivity).
    rewrite wr_mid by (rewrite len_app; change (len [x; y]) with 2; lia); cbn [obind].
    rewrite <- app_assoc; reflexivity.
  Qed.

  Lemma normal_calls positions todo pqrs : Forall2 (has_corners positions) todo pqrs -> forall done i0,
    len (concat done) + 3 * len todo < 4294967296 ->
    forall old, len old = 3 * len todo ->
    calls (normal_step positions) (enum_from i0 todo) (concat done ++ old, len (concat done)) (map (fun _ => tt) todo)
      (concat (done ++ map normal_at pqrs), len (concat done) + 3 * len todo).
  Proof.
    induction 1 as [|t pqr todo pqrs Ht Hts IH]; intros done i0 Hm old Lo.
    - change (len (@nil (list T))) with 0 in *; destruct old; [|rewrite len_cons in Lo; pose proof (len_nonneg old); lia].
      cbn [map enum_from]; rewrite !app_nil_r, Z.mul_0_r, Z.add_0_r; constructor.
    - pose proof (len_nonneg todo); pose proof (len_nonneg (concat done)); rewrite len_cons in *.
      destruct old as [|o0 [|o1 [|o2 old]]]; try (rewrite ?len_cons in Lo; change (len (@nil T)) with 0 in Lo; lia).
      cbn [enum_from map]; econstructor; [apply (normal_step_ok positions t pqr i0 (concat done)); [exact Ht|reflexivity|lia]|].
      pose proof (normal_len positions t pqr Ht) as Ln.
      specialize (IH (done ++ [normal_at pqr]) (i0 + 1)); rewrite concat_app in IH; cbn [concat] in IH; rewrite app_nil_r, len_app, Ln in IH.
      replace (concat (done ++ normal_at pqr :: map normal_at pqrs)) with (concat ((done ++ [normal_at pqr]) ++ map normal_at pqrs)) by (rewrite <- app_assoc; reflexivity).
      replace (len (concat done) + 3 * (len todo + 1)) with (len (concat done) + 3 + 3 * len todo) by lia.
      rewrite app_assoc; apply IH; [lia|]; rewrite !len_cons in Lo; lia.
  Qed.

  Lemma normals_ok (positions indices : Serie T) ps ts pqrs : repr positions 3 ps -> repr indices 3 ts -> Forall2 (has_corners positions) ts pqrs ->
    normals positions indices = Ok (mk 3 (map normal_at pqrs) 3).
  Proof.
    intros Hp Hi Hc; unfold normals; rewrite (isValid_repr _ _ _ Hp), (isValid_repr _ _ _ Hi), (repr_itemSize _ _ _ Hp), (repr_itemSize _ _ _ Hi), (repr_count _ _ _ Hi).
    cbn [Z.ltb Z.eqb Pos.eqb Z.compare negb orb].
    assert (Hm : 3 * len ts < 4294967296) by apply Hi; pose proof (len_nonneg ts) as Hn.
    rewrite u32_small by lia.
    pose proof (normal_calls positions ts pqrs Hc [] 0 ltac:(change (len (concat (@nil (list T)))) with 0; lia) (createArray (len ts * 3) (n_of_Z 0))) as C.
    cbn [concat app] in C; change (len (@nil T)) with 0 in C.
    rewrite (forEach_v_calls _ indices 3 ts _ _ _ Hi ltac:(lia) (C ltac:(unfold createArray; rewrite len_replicate; lia))); cbn [obind].
    apply serie_of_rows; [lia| |].
    - clear -Hc; induction Hc as [|t pqr ts pqrs Ht _ IH]; cbn [map]; constructor; [apply (normal_len positions t pqr Ht)|exact IH].
    - unfold len in *; rewrite map_length, <- (Forall2_len _ _ _ Hc); lia.
  Qed.
End Loop.

(** ** Exact meshes *)
Lemma u32_INR i : Z.of_nat i < 4294967296 -> @n_to_u32 R r_num (INR i) = Ok (Z.of_nat i).
Proof.
  intros Hi; unfold n_to_u32; cbn [n_to_Z r_num]; rewrite INR_IZR_INZ, Ztrunc_IZR.
  replace ((0 <=? Z.of_nat i) && (Z.of_nat i <? two32))%bool with true; [reflexivity|].
  symmetry; apply andb_true_intro; split; [apply Z.leb_le|apply Z.ltb_lt; unfold two32]; lia.
Qed.
Lemma corners_R (positions : Serie R) ps t : repr positions 3 ps -> tri_in (length ps) t ->
  has_corners (NT := r_num) positions (tri_row t) (corner1 ps t, corner2 ps t, corner3 ps t).
Proof.
  intros Hp H; destruct t as [[i j] k]; destruct H as (Hi & Hj & Hk); cbn [has_corners tri_row corner1 corner2 corner3].
  assert (Hb : len ps < 4294967296) by apply Hp; unfold len in Hb.
  pose proof (repr_rows _ _ _ Hp) as Rr; unfold rows_of_size in Rr; rewrite Forall_forall in Rr.
  assert (V : forall q, (q < length ps)%nat -> (let* i := @n_to_u32 R r_num (INR q) in value positions i) = Ok (nth q ps [])).
  { intros q Hq; rewrite u32_INR by lia; cbn [obind]; apply (value_nth positions 3 ps q _ Hp), nth_error_nth'; exact Hq. }
  repeat apply conj; try (apply Rr, nth_In; assumption); unfold vertex.
  - change (rd [INR i; INR j; INR k] 0) with (Ok (INR i)); apply V; exact Hi.
  - change (rd [INR i; INR j; INR k] 1) with (Ok (INR j)); apply V; exact Hj.
  - change (rd [INR i; INR j; INR k] 2) with (Ok (INR k)); apply V; exact Hk.
Qed.
Lemma normals_R (positions indices : Serie R) ps ts : repr positions 3 ps -> repr indices 3 (map tri_row ts) -> Forall (tri_in (length ps)) ts ->
  @normals R r_num positions indices = Ok (mk 3 (map (fun t => @normal3 R r_num (corner1 ps t) (corner2 ps t) (corner3 ps t)) ts) 3).
Proof.
  intros Hp Hi Ht; rewrite (@normals_ok R r_num positions indices ps (map tri_row ts) (map (fun t => (corner1 ps t, corner2 ps t, corner3 ps t)) ts) Hp Hi).
  - rewrite map_map; reflexivity.
  - clear Hi; induction Ht as [|t ts H _ IH]; cbn [map]; constructor; [apply corners_R; assumption|exact IH].
Qed.

Lemma inner_3 a b c x y z : inner [a; b; c] [x; y; z] = (a * x + b * y + c * z)%R.
Proof. unfold inner, LinSpec.total; cbn [map2 fold_right]; ring. Qed.
(** rows of a 3x3 matrix *)
Definition rows3 (u v w : list R) : Mat := fun i j => nth j (nth i [u; v; w] []) 0%R.

(** ** C84 *)
Theorem C84_normals :
  forall (positions indices : Serie R) ps (ts : list tri),
  repr positions 3 ps -> repr indices 3 (map tri_row ts) -> Forall (tri_in (length ps)) ts ->
  exists ns, @normals R r_num positions indices = Ok (mk 3 ns 3) /\
    Forall2 (fun t n =>
      let p := corner1 ps t in let q := corner2 ps t in let r := corner3 ps t in
      len n = 3 /\
      inner n (edge p q) = 0%R /\ inner n (edge p r) = 0%R /\ inner n (edge q r) = 0%R /\
      inner n n = (4 * (area p q r * area p q r))%R /\
      determinant 3 (rows3 (edge p q) (edge p r) n) = inner n n) ts ns.
Proof.
  intros positions indices ps ts Hp Hi Ht; eexists; split; [apply (normals_R positions indices ps ts Hp Hi Ht)|].
  pose proof (repr_rows _ _ _ Hp) as Rr; unfold rows_of_size in Rr; rewrite Forall_forall in Rr.
  clear Hi; induction Ht as [|t ts H _ IH]; cbn [map]; constructor; [|exact IH]; cbv zeta.
  destruct t as [[i j] k]; destruct H as (H1 & H2 & H3); cbn [corner1 corner2 corner3].
  destruct (len3 (nth i ps []) (Rr _ (nth_In ps [] H1))) as (p0 & p1 & p2 & ->).
  destruct (len3 (nth j ps []) (Rr _ (nth_In ps [] H2))) as (q0 & q1 & q2 & ->).
  destruct (len3 (nth k ps []) (Rr _ (nth_In ps [] H3))) as (r0 & r1 & r2 & ->).
  unfold normal3; cbn [sub3 map2 cross3 edge]; cbn [n_sub n_mul r_num].
  split; [reflexivity|]; rewrite !inner_3; repeat apply conj; try ring.
  - unfold area.
    replace (4 * (sqrt (heron [p0; p1; p2] [q0; q1; q2] [r0; r1; r2]) / 4 * (sqrt (heron [p0; p1; p2] [q0; q1; q2] [r0; r1; r2]) / 4)))%R
      with (sqrt (heron [p0; p1; p2] [q0; q1; q2] [r0; r1; r2]) * sqrt (heron [p0; p1; p2] [q0; q1; q2] [r0; r1; r2]) / 4)%R by field.
    set (n2 := (_ + _ + _)%R).
    assert (E : heron [p0; p1; p2] [q0; q1; q2] [r0; r1; r2] = (4 * n2)%R).
    { unfold heron, n2; cbn [edge map2]; rewrite !inner_3; ring. }
    assert (P : (0 <= n2)%R).
    { unfold n2; pose proof (fun x => Rle_0_sqr x) as Q; unfold Rsqr in Q; repeat apply Rplus_le_le_0_compat; apply Q. }
    rewrite E, sqrt_sqrt by lra; field.
  - unfold determinant, upto, minor, LinSpec.total, rows3; cbn [seq map fold_right pow Nat.ltb Nat.leb nth]; ring.
Qed.
Print Assumptions C84_normals.

Lemma list3 {A} (a b c a' b' c' : A) : a = a' -> b = b' -> c = c' -> [a; b; c] = [a'; b'; c'].
Proof. congruence. Qed.
(** the three exchanges of two vertices *)
Definition swap12 (t : tri) : tri := let '(i, j, k) := t in (j, i, k).
Definition swap23 (t : tri) : tri := let '(i, j, k) := t in (i, k, j).
Definition swap13 (t : tri) : tri := let '(i, j, k) := t in (k, j, i).
Theorem C84_swap :
  forall (positions indices indices' : Serie R) ps (ts : list tri) swap,
  swap = swap12 \/ swap = swap23 \/ swap = swap13 ->
  repr positions 3 ps -> repr indices 3 (map tri_row ts) -> repr indices' 3 (map (fun t => tri_row (swap t)) ts) -> Forall (tri_in (length ps)) ts ->
  exists ns, @normals R r_num positions indices = Ok (mk 3 ns 3) /\ @normals R r_num positions indices' = Ok (mk 3 (map (map Ropp) ns) 3).
Proof.
  intros positions indices indices' ps ts swap Hs Hp Hi Hi' Ht; eexists; split; [apply (normals_R positions indices ps ts Hp Hi Ht)|].
  rewrite <- (map_map swap tri_row) in Hi'.
  rewrite (normals_R positions indices' ps (map swap ts) Hp Hi').
  - rewrite !map_map; f_equal; f_equal; apply map_ext_in; intros t Hin.
    rewrite Forall_forall in Ht; specialize (Ht t Hin).
    pose proof (repr_rows _ _ _ Hp) as Rr; unfold rows_of_size in Rr; rewrite Forall_forall in Rr.
    destruct t as [[i j] k]; destruct Ht as (H1 & H2 & H3).
    destruct Hs as [->|[->| ->]]; cbn [swap12 swap23 swap13 corner1 corner2 corner3];
      destruct (len3 (nth i ps []) (Rr _ (nth_In ps [] H1))) as (p0 & p1 & p2 & ->);
      destruct (len3 (nth j ps []) (Rr _ (nth_In ps [] H2))) as (q0 & q1 & q2 & ->);
      destruct (len3 (nth k ps []) (Rr _ (nth_In ps [] H3))) as (r0 & r1 & r2 & ->);
      unfold normal3; cbn [sub3 map2 cross3 map]; cbn [n_sub n_mul r_num]; apply list3; ring.
  - apply Forall_forall; intros t Hin; apply in_map_iff in Hin; destruct Hin as (t' & <- & Hin); rewrite Forall_forall in Ht; specialize (Ht t' Hin).
    destruct t' as [[i j] k]; destruct Ht as (H1 & H2 & H3); destruct Hs as [->|[->| ->]]; cbn; auto.
Qed.
Print Assumptions C84_swap.

(** a vertex that does not exist: the read is undefined *)
Theorem C84_missing_point :
  forall (ps : list (list R)) d (indices : Serie R) (ts : list tri),
  rows_of_size 3 ps -> 3 * len ps < 4294967296 -> repr indices 3 (map tri_row ts) ->
  Forall (tri_in (Z.to_nat 1431655765)) ts -> ~ Forall (tri_in (length ps)) ts ->
  @normals R r_num (mk 3 ps d) indices = UB.
Proof.
  intros ps d indices ts Hr Hm Hi Hb Hbad.
  assert (Hp : repr (mk 3 ps d) 3 ps) by (apply repr_mk; [exact Hr|lia|pose proof (len_nonneg ps); lia|exact Hm]).
  assert (V : forall q, (length ps <= q)%nat -> Z.of_nat q < 1431655765 -> value (mk 3 ps d) (Z.of_nat q) = UB).
  { intros q Hq Hq2; unfold value, read_item, mk; cbn [itemSize_ s_]; change (3 <? 0) with false; cbv iota; change (iota 3) with [0; 1; 2]; cbn [mapO].
    rewrite (u32_small (Z.of_nat q * 3)), (u32_small (Z.of_nat q * 3 + 0)) by lia.
    replace (rd (concat ps) (Z.of_nat q * 3 + 0)) with (@UB R); [reflexivity|].
    symmetry; unfold rd; rewrite (len_concat 3) by exact Hr; destruct (Z.ltb_spec (Z.of_nat q * 3 + 0) (3 * len ps)); [unfold len in *; lia|].
    destruct (0 <=? Z.of_nat q * 3 + 0); reflexivity. }
  assert (D : forall t, tri_in (Z.to_nat 1431655765) t -> ~ tri_in (length ps) t ->
      forall j st, exists st', @normal_step R r_num (mk 3 ps d) (tri_row t) j st = (UB, st')).
  { intros [[i j] k] (B1 & B2 & B3) Hn jj [data ii]; eexists; unfold normal_step, vertex, tri_row.
    change (rd [INR i; INR j; INR k] 0) with (Ok (INR i)); change (rd [INR i; INR j; INR k] 1) with (Ok (INR j)); change (rd [INR i; INR j; INR k] 2) with (Ok (INR k)); cbn [obind].
    rewrite !u32_INR by lia; cbn [obind].
    assert (W : forall q, (q < length ps)%nat -> value (mk 3 ps d) (Z.of_nat q) = Ok (nth q ps [])) by (intros q Hq; apply (value_nth _ 3 ps q _ Hp), nth_error_nth'; exact Hq).
    destruct (Nat.lt_ge_cases i (length ps)) as [H1|H1]; [rewrite (W i H1); cbn [obind]|rewrite (V i H1) by lia; reflexivity].
    destruct (Nat.lt_ge_cases j (length ps)) as [H2|H2]; [rewrite (W j H2); cbn [obind]|rewrite (V j H2) by lia; reflexivity].
    destruct (Nat.lt_ge_cases k (length ps)) as [H3|H3]; [exfalso; apply Hn; repeat split; assumption|rewrite (V k H3) by lia; reflexivity]. }
  assert (C : forall ts, Forall (tri_in (Z.to_nat 1431655765)) ts -> ~ Forall (tri_in (length ps)) ts -> forall done i0 old,
      len old = 3 * len ts -> len (concat done) + 3 * len ts < 4294967296 ->
      exists st', calls_ub (@normal_step R r_num (mk 3 ps d)) (enum_from i0 (map tri_row ts)) (concat done ++ old, len (concat done)) st').
  { clear Hi Hb Hbad ts; induction 1 as [|t ts Ht Hts IH]; intros Hbad done i0 old Lo Hl; [exfalso; apply Hbad; constructor|].
    cbn [map enum_from].
    assert (Dec : tri_in (length ps) t \/ ~ tri_in (length ps) t).
    { destruct t as [[i j] k]; unfold tri_in; destruct (lt_dec i (length ps)), (lt_dec j (length ps)), (lt_dec k (length ps)); tauto. }
    destruct Dec as [Hin|Hout].
    - pose proof (len_nonneg ts); pose proof (len_nonneg (concat done)); rewrite len_cons in *.
      destruct old as [|o0 [|o1 [|o2 old]]]; try (rewrite ?len_cons in Lo; change (len (@nil R)) with 0 in Lo; lia).
      pose proof (corners_R (mk 3 ps d) ps t Hp Hin) as Hc.
      pose proof (normal_len (NT := r_num) _ _ _ Hc) as Ln.
      destruct (IH ltac:(intros F; apply Hbad; constructor; assumption) (done ++ [@normal_at R r_num (corner1 ps t, corner2 ps t, corner3 ps t)]) (i0 + 1) old) as (st' & U).
      + rewrite !len_cons in Lo; lia.
      + rewrite concat_app, len_app; cbn [concat]; rewrite app_nil_r, Ln; lia.
      + exists st'; eapply cu_later; [apply (normal_step_ok (NT := r_num) (mk 3 ps d) (tri_row t) _ i0 (concat done) o0 o1 o2 old _ Hc eq_refl); lia|].
        rewrite concat_app, len_app in U; cbn [concat] in U; rewrite app_nil_r, Ln, <- app_assoc in U; exact U.
    - destruct (D t Ht Hout i0 (concat done ++ old, len (concat done))) as (st' & E); exists st'; apply cu_here; exact E. }
  unfold normals; rewrite (isValid_repr _ _ _ Hp), (isValid_repr _ _ _ Hi), (repr_itemSize _ _ _ Hp), (repr_itemSize _ _ _ Hi), (repr_count _ _ _ Hi).
  cbn [Z.ltb Z.eqb Pos.eqb Z.compare negb orb].
  assert (Lm : len (map tri_row ts) = len ts) by (unfold len; rewrite map_length; reflexivity).
  assert (Hm' : 3 * len (map tri_row ts) < 4294967296) by apply Hi; rewrite Lm in *; pose proof (len_nonneg ts) as Hn.
  rewrite u32_small by lia.
  destruct (C ts Hb Hbad [] 0 (createArray (len ts * 3) (@n_of_Z R r_num 0))) as (st' & U).
  - unfold createArray; rewrite len_replicate; lia.
  - change (len (concat (@nil (list R)))) with 0; lia.
  - cbn [concat app] in U; change (len (@nil R)) with 0 in U.
    unfold forEach_v; rewrite (repr_itemSize _ _ _ Hi), (repr_count _ _ _ Hi); cbn [Z.eqb Pos.eqb].
    unfold mbind at 1; rewrite (each_reads _ _ (map tri_row ts) _ (reads_array indices 3 _ Hi)).
    apply calls_ub_mapM in U; unfold enum; rewrite U; destruct st' as [? ?]; reflexivity.
Qed.
Print Assumptions C84_missing_point.

Example C84_example :
  let ps := [[0; 0; 0]; [1; 0; 0]; [0; 1; 0]; [0; 0; 1]]%R in let ts := [(0, 1, 2); (1, 3, 2)]%nat in
  repr (mk 3 ps 3) 3 ps /\ repr (mk 3 (map tri_row ts) 3) 3 (map tri_row ts) /\ Forall (tri_in (length ps)) ts /\ ~ Forall (tri_in 3) ts /\
  heron [0; 0; 0]%R [1; 0; 0]%R [0; 1; 0]%R = 4%R.
Proof.
  cbv zeta; cbn [map tri_row]; split; [repr_ex|split; [repr_ex|split; [repeat constructor; cbn; lia|split; [|unfold heron; cbn [edge map2]; rewrite !inner_3; ring]]]].
  intros F; rewrite Forall_forall in F; specialize (F (1, 3, 2)%nat (or_intror (or_introl eq_refl))); cbn in F; lia.
Qed.

(** ** C85 *)
Lemma norm2_ub {T} {NT : Num T} (s : Serie T) k r0 r1 rows : repr s k (r0 :: r1 :: rows) -> 2 <= k -> norm2 s = UB.
Proof.
  intros Hs Hk; unfold norm2; rewrite (isValid_repr _ _ _ Hs), (repr_itemSize _ _ _ Hs), (repr_count _ _ _ Hs).
  destruct (Z.ltb_spec 0 k); [|lia]; destruct (Z.eqb_spec k 1); [lia|]; cbn [negb].
  rewrite iota_len; cbn [length]; rewrite !seqZ_S; cbn [foldO].
  change (Z.of_nat 0) with 0; change (Z.of_nat 1) with 1.
  rewrite (value_nth s k (r0 :: r1 :: rows) 0 r0 Hs eq_refl : value s 0 = Ok r0); cbn [obind]; rewrite sq_loop; cbn [obind].
  change (wr (createArray 1 (n_of_Z (len (r0 :: r1 :: rows)))) 0 (sum_prod r0 r0)) with (Ok [sum_prod r0 r0]); cbn [obind].
  rewrite (value_nth s k (r0 :: r1 :: rows) 1 r1 Hs eq_refl : value s 1 = Ok r1); cbn [obind]; rewrite sq_loop; cbn [obind]; reflexivity.
Qed.
Lemma norm_small {T} {NT : Num T} (s : Serie T) k rows : repr s k rows -> 2 <= k -> len rows <= 1 -> exists x, norm s = Ok (mk 1 (col [x]) 3).
Proof.
  intros Hs Hk Hl.
  assert (E : exists y, norm2 s = Ok (mk 1 (col [y]) 3)).
  { unfold norm2; rewrite (isValid_repr _ _ _ Hs), (repr_itemSize _ _ _ Hs), (repr_count _ _ _ Hs).
    destruct (Z.ltb_spec 0 k); [|lia]; destruct (Z.eqb_spec k 1); [lia|]; cbn [negb].
    destruct rows as [|r [|r2 rows]]; [eexists; reflexivity| |rewrite !len_cons in Hl; pose proof (len_nonneg rows); lia].
    change (iota (len [r])) with [0]; cbn [foldO].
    rewrite (value_nth s k [r] 0 r Hs eq_refl : value s 0 = Ok r); cbn [obind]; rewrite sq_loop; cbn [obind]; eexists; reflexivity. }
  destruct E as [y E]; unfold norm; rewrite E; cbn [obind].
  exists (n_sqrt y); apply (map_rows_ok (mk 1 (col [y]) 3) 1 (col [y]) (fun a => let* x := rd a 0 in Ok [n_sqrt x]) (fun a => match a with x :: _ => [n_sqrt x] | [] => [] end) 1);
    [repr_ex|discriminate|lia|intros r [<-|[]]; split; reflexivity].
Qed.

(** no mesh gets its areas: exception up to one triangle, undefined from two on, in every arithmetic *)
Theorem C85_never_returns :
  forall {T} {NT : Num T} (positions indices : Serie T) ps ts pqrs,
  repr positions 3 ps -> repr indices 3 ts -> Forall2 (has_corners positions) ts pqrs ->
  (len ts <= 1 -> areas positions indices = Throw InvalidArgument) /\ (2 <= len ts -> areas positions indices = UB).
Proof.
  intros T NT positions indices ps ts pqrs Hp Hi Hc; pose proof (normals_ok positions indices ps ts pqrs Hp Hi Hc) as N.
  assert (Ln : len (map normal_at pqrs) = len ts) by (unfold len; rewrite map_length, (Forall2_len _ _ _ Hc); reflexivity).
  assert (Hn : repr (mk 3 (map normal_at pqrs) 3) 3 (map normal_at pqrs)).
  { apply repr_mk; [|lia|rewrite Ln; apply Hi|rewrite Ln; apply Hi].
    clear -Hc; induction Hc as [|t pqr ts pqrs Ht _ IH]; cbn [map]; constructor; [apply (normal_len positions t pqr Ht)|exact IH]. }
  unfold areas; rewrite (isValid_repr _ _ _ Hp), (isValid_repr _ _ _ Hi); cbn [Z.ltb Z.compare negb orb]; rewrite N; cbn [obind]; split; intros Hl.
  - destruct (norm_small _ 3 _ Hn ltac:(lia) ltac:(lia)) as (x & ->); reflexivity.
  - destruct (map normal_at pqrs) as [|r0 [|r1 rows]]; [change (len (@nil (list T))) with 0 in Ln; lia|change (len [r0]) with 1 in Ln; lia|].
    unfold norm; rewrite (norm2_ub _ 3 r0 r1 rows Hn) by lia; reflexivity.
Qed.
Print Assumptions C85_never_returns.

(** one triangle of area 1/2 *)
(** C84, C85: shapes that are not a mesh give an empty Serie *)
Theorem C84_otherwise : forall {T} {NT : Num T} (positions indices : Serie T) k k' ps ts, repr positions k ps -> repr indices k' ts -> k <> 3 \/ k' <> 3 ->
  normals positions indices = Ok (mk 0 [] 3).
Proof.
  intros T NT positions indices k k' ps ts Hp Hi Ho; unfold normals; rewrite (repr_itemSize _ _ _ Hp), (repr_itemSize _ _ _ Hi).
  destruct (negb (isValid positions) || negb (isValid indices)); [reflexivity|].
  destruct (Z.eqb_spec k 3), (Z.eqb_spec k' 3); try reflexivity; lia.
Qed.
Theorem C85_otherwise : forall {T} {NT : Num T} (positions indices : Serie T) k k' ps ts, repr positions k ps -> repr indices k' ts -> k = 0 \/ k' = 0 ->
  areas positions indices = Ok (mk 0 [] 3).
Proof.
  intros T NT positions indices k k' ps ts Hp Hi Ho; unfold areas; rewrite (isValid_repr _ _ _ Hp), (isValid_repr _ _ _ Hi).
  destruct Ho as [->| ->]; cbn [Z.ltb Z.compare negb orb]; rewrite ?orb_true_r; reflexivity.
Qed.
Print Assumptions C84_otherwise.
Print Assumptions C85_otherwise.
Theorem C85_refuted :
  exists (positions indices : Serie R) ps ts, repr positions 3 ps /\ repr indices 3 (map tri_row ts) /\ Forall (tri_in (length ps)) ts /\ length ts = 1%nat /\
    forall s, @areas R r_num positions indices <> Ok s.
Proof.
  set (ps := [[0; 0; 0]; [1; 0; 0]; [0; 1; 0]]%R); set (ts := [(0, 1, 2)]%nat).
  assert (Hp : repr (mk 3 ps 3) 3 ps) by repr_ex; assert (Hi : repr (mk 3 (map tri_row ts) 3) 3 (map tri_row ts)) by repr_ex.
  assert (Ht : Forall (tri_in (length ps)) ts) by (repeat constructor; cbn; lia).
  exists (mk 3 ps 3), (mk 3 (map tri_row ts) 3), ps, ts; split; [exact Hp|split; [exact Hi|split; [exact Ht|split; [reflexivity|]]]]; intros s.
  pose proof (C85_never_returns (NT := r_num) (mk 3 ps 3) (mk 3 (map tri_row ts) 3) ps (map tri_row ts) (map (fun t => (corner1 ps t, corner2 ps t, corner3 ps t)) ts) Hp Hi) as [H _].
  - constructor; [|constructor]; apply (corners_R (mk 3 ps 3) ps (0, 1, 2)%nat Hp); cbn; lia.
  - rewrite H by reflexivity; discriminate.
Qed.
Print Assumptions C85_refuted.

(** ** C86 *)
Theorem C86_insar_partial :
  forall (u : Serie R) rows los, repr u 3 rows -> rows <> [] -> len los = 3 ->
  @insar R r_num u los = Ok (mk 1 (col (map (fun d => inner d los) rows)) 3).
Proof.
  intros u rows los Hu Hne Ll; unfold insar; rewrite (isValid_repr _ _ _ Hu), (repr_itemSize _ _ _ Hu), Ll; cbn [Z.ltb Z.compare Z.eqb Pos.eqb negb orb].
  unfold dot_array; destruct rows as [|r0 rows]; [congruence|].
  pose proof (repr_rows _ _ _ Hu) as Rr; unfold rows_of_size in Rr; rewrite Forall_forall in Rr.
  rewrite (value_nth u 3 (r0 :: rows) 0 r0 Hu eq_refl : value u 0 = Ok r0); cbn [obind].
  rewrite (Rr r0 (or_introl eq_refl)), Ll; cbn [Z.eqb Pos.eqb negb]; rewrite (repr_itemSize _ _ _ Hu).
  unfold col; rewrite map_map.
  apply (@map_rows_ok R r_num u 3 (r0 :: rows) (fun arr => @dot_item R r_num 3 arr los) (fun d => [inner d los]) 1 Hu Hne ltac:(lia)).
  intros r Hr; split; [|reflexivity]; rewrite (@dot_item_ok R r_num) by (first [apply Rr; exact Hr|exact Ll]); rewrite sum_prod_inner; reflexivity.
Qed.
Print Assumptions C86_insar_partial.
(** the empty displacement Serie: [a.value(0)] reads past the end *)
Theorem C86_insar_empty_refuted : exists u : Serie R, repr u 3 [] /\ @insar R r_num u [1; 0; 0]%R = UB.
Proof. exists (mk 3 [] 3); split; [repr_ex|reflexivity]. Qed.
Print Assumptions C86_insar_empty_refuted.

Definition fringe (w d : R) : R := Rabs (w * (d / w - IZR (Zfloor (d / w)))).
Lemma fringe_spec w d : w <> 0%R -> (0 <= fringe w d < Rabs w)%R /\ (exists k : Z, fringe w d = Rabs (d - IZR k * w))%R.
Proof.
  intros Hw; unfold fringe; pose proof (Zfloor_lb (d / w)); pose proof (Zfloor_ub (d / w)); split.
  - split; [apply Rabs_pos|]; rewrite Rabs_mult, (Rabs_pos_eq (d / w - _)) by lra.
    pose proof (Rabs_pos_lt w Hw); nra.
  - exists (Zfloor (d / w)); f_equal; field; exact Hw.
Qed.
Lemma Zfloor_plus x k : Zfloor (x + IZR k) = Zfloor x + k.
Proof. apply Zfloor_imp; rewrite !plus_IZR; pose proof (Zfloor_lb x); pose proof (Zfloor_ub x); lra. Qed.
Lemma fringe_periodic w d k : w <> 0%R -> fringe w (d + IZR k * w) = fringe w d.
Proof.
  intros Hw; unfold fringe; replace ((d + IZR k * w) / w)%R with (d / w + IZR k)%R by (field; exact Hw).
  rewrite Zfloor_plus, plus_IZR; do 2 f_equal; lra.
Qed.
Lemma fringes_ok (s : Serie R) xs w : repr s 1 (col xs) -> xs <> [] -> @fringes R r_num s w = Ok (mk 1 (col (map (fringe w) xs)) 3).
Proof.
  intros Hs Hne; unfold fringes; rewrite (isValid_repr _ _ _ Hs), (repr_itemSize _ _ _ Hs); cbn [Z.ltb Z.compare Z.eqb Pos.eqb negb orb].
  replace (col (map (fringe w) xs)) with (map (fun r => [fringe w (hd 0%R r)]) (col xs)) by (unfold col; rewrite !map_map; reflexivity).
  apply (@map_rows_ok R r_num s 1 (col xs) (fun v => let* x := rd v 0 in Ok [n_abs (n_mul w (frac (n_div x w)))]) (fun r => [fringe w (hd 0%R r)]) 1 Hs); [destruct xs; [congruence|discriminate]|lia|].
  intros r Hr; apply in_map_iff in Hr; destruct Hr as (x & <- & _); split; reflexivity.
Qed.

Theorem C86_fringes :
  forall (s : Serie R) ds w, repr s 1 (col ds) -> ds <> [] -> w <> 0%R ->
  exists fs, @fringes R r_num s w = Ok (mk 1 (col fs) 3) /\
    Forall2 (fun d f => (0 <= f < Rabs w)%R /\ exists k : Z, f = Rabs (d - IZR k * w)) ds fs.
Proof.
  intros s ds w Hs Hne Hw; exists (map (fringe w) ds); split; [apply fringes_ok; assumption|].
  clear Hs Hne; induction ds as [|d ds IH]; cbn [map]; constructor; [apply fringe_spec; exact Hw|exact IH].
Qed.
Print Assumptions C86_fringes.
(** moving every value by a number of periods changes nothing *)
Theorem C86_periodic :
  forall (s s' : Serie R) ds ks w, repr s 1 (col ds) -> repr s' 1 (col (map2 (fun d k => d + IZR k * w)%R ds ks)) -> length ks = length ds -> ds <> [] -> w <> 0%R ->
  @fringes R r_num s' w = @fringes R r_num s w.
Proof.
  intros s s' ds ks w Hs Hs' Hl Hne Hw; rewrite (fringes_ok s ds w Hs Hne), (fringes_ok s' _ w Hs').
  - do 3 f_equal; clear Hs Hs' Hne; revert ks Hl; induction ds as [|d ds IH]; intros [|k ks] Hl; try discriminate; [reflexivity|]; cbn [map2 map]; rewrite fringe_periodic by exact Hw; f_equal; apply IH; injection Hl as Hl; exact Hl.
  - destruct ds; [congruence|]; destruct ks; [discriminate|]; discriminate.
Qed.
Print Assumptions C86_periodic.
(** no value, no fringe *)
Theorem C86_fringes_empty : forall {T} {NT : Num T} (s : Serie T) w, repr s 1 [] -> fringes s w = Ok (mk 0 [] 3).
Proof. intros T NT s w Hs; unfold fringes; rewrite (isValid_repr _ _ _ Hs), (repr_itemSize _ _ _ Hs); cbn [Z.ltb Z.compare Z.eqb Pos.eqb negb orb]; apply (run_map_vv_empty _ s 1 Hs). Qed.
Print Assumptions C86_fringes_empty.
(** other shapes give an empty Serie *)
Theorem C86_insar_otherwise : forall {T} {NT : Num T} (u : Serie T) k rows los, repr u k rows -> k <> 3 \/ len los <> 3 -> insar u los = Ok (mk 0 [] 3).
Proof.
  intros T NT u k rows los Hu Ho; unfold insar; rewrite (repr_itemSize _ _ _ Hu); destruct (isValid u); cbn [negb orb]; [|reflexivity].
  destruct (Z.eqb_spec k 3), (Z.eqb_spec (len los) 3); try reflexivity; lia.
Qed.
Theorem C86_fringes_otherwise : forall {T} {NT : Num T} (s : Serie T) k rows w, repr s k rows -> k <> 1 -> fringes s w = Ok (mk 0 [] 3).
Proof.
  intros T NT s k rows w Hs Ho; unfold fringes; rewrite (repr_itemSize _ _ _ Hs); destruct (isValid s); cbn [negb orb]; [|reflexivity].
  destruct (Z.eqb_spec k 1); [contradiction|reflexivity].
Qed.
Print Assumptions C86_insar_otherwise.
Print Assumptions C86_fringes_otherwise.
Example C86_example : repr (mk 1 (col [7; -1])%R 3) 1 (col [7; -1]%R) /\ fringe 3 7 = 1%R /\ fringe 3 (-1) = 2%R /\ repr (mk 3 [[1; 2; 3]]%R 3) 3 [[1; 2; 3]]%R.
Proof.
  split; [repr_ex|split; [|split; [|repr_ex]]]; unfold fringe.
  - replace (Zfloor (7 / 3)) with 2 by (symmetry; apply Zfloor_imp; change (2 + 1) with 3; lra); replace (3 * (7 / 3 - IZR 2))%R with 1%R by field; apply Rabs_pos_eq; lra.
  - replace (Zfloor (-1 / 3)) with (-1) by (symmetry; apply Zfloor_imp; change (-1 + 1) with 0; lra); replace (3 * (-1 / 3 - IZR (-1)))%R with 2%R by field; apply Rabs_pos_eq; lra.
Qed.
