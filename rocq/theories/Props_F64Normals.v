(** * C140: normals of triangles in binary64. *)
From Verif Require Import Base Num Serie Spec BaseFacts SerieFacts Functional FunctionalFacts Mathf MathFacts MinMaxFacts Stats StatsFacts Algebra AlgebraFacts Geo ViewFacts.
From Verif Require Import F64 F64Facts F64Arith F64Round F64Sum RNum LinSpec Props_Functional Props_Algebra Props_F64Int F64Error Props_F64Cross Props_Geo.
From Flocq Require Import Core IEEE754.BinarySingleNaN.
From Coq Require Import Reals Lra Psatz.
Open Scope Z_scope.
Opaque f64_of_Z.

(** a triangle is stored as three doubles, its vertices are rows of the positions *)
Definition ftri_row (t : tri) : list F64 := let '(i, j, k) := t in [#(Z.of_nat i); #(Z.of_nat j); #(Z.of_nat k)].
Definition at1 (ps : list (list F64)) (t : tri) : list F64 := let '(i, _, _) := t in nth i ps [].
Definition at2 (ps : list (list F64)) (t : tri) : list F64 := let '(_, j, _) := t in nth j ps [].
Definition at3 (ps : list (list F64)) (t : tri) : list F64 := let '(_, _, k) := t in nth k ps [].

Lemma u32_f64 (L : Libm) i : Z.of_nat i < 4294967296 -> @n_to_u32 F64 (f64_num L) #(Z.of_nat i) = Ok (Z.of_nat i).
Proof.
  intros Hi; destruct (f64_of_Z_correct (Z.of_nat i) ltac:(lia)) as (E & F & _).
  unfold n_to_u32; cbn [n_to_Z f64_num]; rewrite F, (trunc_ok _ _ E).
  replace ((0 <=? Z.of_nat i) && (Z.of_nat i <? two32))%bool with true; [reflexivity|].
  symmetry; apply andb_true_intro; split; [apply Z.leb_le|apply Z.ltb_lt; unfold two32]; lia.
Qed.
Lemma corners_f64 (L : Libm) (positions : Serie F64) ps t : repr positions 3 ps -> tri_in (length ps) t ->
  has_corners (NT := f64_num L) positions (ftri_row t) (at1 ps t, at2 ps t, at3 ps t).
Proof.
  intros Hp H; destruct t as [[i j] k]; destruct H as (Hi & Hj & Hk); cbn [has_corners ftri_row at1 at2 at3].
  assert (Hb : len ps < 4294967296) by apply Hp; unfold len in Hb.
  pose proof (repr_rows _ _ _ Hp) as Rr; unfold rows_of_size in Rr; rewrite Forall_forall in Rr.
  assert (V : forall q, (q < length ps)%nat -> (let* i := @n_to_u32 F64 (f64_num L) #(Z.of_nat q) in value positions i) = Ok (nth q ps [])).
  { intros q Hq; rewrite u32_f64 by lia; cbn [obind]; apply (value_nth positions 3 ps q _ Hp), nth_error_nth'; exact Hq. }
  repeat apply conj; try (apply Rr, nth_In; assumption); unfold vertex.
  - change (rd [#(Z.of_nat i); #(Z.of_nat j); #(Z.of_nat k)] 0) with (Ok #(Z.of_nat i)); apply V; exact Hi.
  - change (rd [#(Z.of_nat i); #(Z.of_nat j); #(Z.of_nat k)] 1) with (Ok #(Z.of_nat j)); apply V; exact Hj.
  - change (rd [#(Z.of_nat i); #(Z.of_nat j); #(Z.of_nat k)] 2) with (Ok #(Z.of_nat k)); apply V; exact Hk.
Qed.
Lemma normals_f64 (L : Libm) (positions indices : Serie F64) ps ts : repr positions 3 ps -> repr indices 3 (map ftri_row ts) -> Forall (tri_in (length ps)) ts ->
  @normals F64 (f64_num L) positions indices = Ok (mk 3 (map (fun t => @normal3 F64 F64N (at1 ps t) (at2 ps t) (at3 ps t)) ts) 3).
Proof.
  intros Hp Hi Ht; rewrite (@normals_ok F64 (f64_num L) positions indices ps (map ftri_row ts) (map (fun t => (at1 ps t, at2 ps t, at3 ps t)) ts) Hp Hi).
  - rewrite map_map; reflexivity.
  - clear Hi; induction Ht as [|t ts H _ IH]; cbn [map]; constructor; [apply corners_f64; assumption|exact IH].
Qed.
Lemma at_len ps t : rows_of_size 3 ps -> tri_in (length ps) t -> len (at1 ps t) = 3 /\ len (at2 ps t) = 3 /\ len (at3 ps t) = 3 /\
  In (at1 ps t) ps /\ In (at2 ps t) ps /\ In (at3 ps t) ps.
Proof.
  intros Rr H; unfold rows_of_size in Rr; rewrite Forall_forall in Rr; destruct t as [[i j] k]; destruct H as (Hi & Hj & Hk); cbn [at1 at2 at3].
  repeat apply conj; try (apply Rr); apply nth_In; assumption.
Qed.

(** ** exchanging the last two vertices changes the sign, bit for bit up to the sign of zero *)
Theorem C140_swap :
  forall (L : Libm) (positions indices indices' : Serie F64) ps (ts : list tri),
  repr positions 3 ps -> repr indices 3 (map ftri_row ts) -> repr indices' 3 (map (fun t => ftri_row (swap23 t)) ts) -> Forall (tri_in (length ps)) ts ->
  exists ns ns', @normals F64 (f64_num L) positions indices = Ok (mk 3 ns 3) /\ @normals F64 (f64_num L) positions indices' = Ok (mk 3 ns' 3) /\
    Forall2 (Forall2 (fun x y => zeq x (Bopp y))) ns ns'.
Proof.
  intros L positions indices indices' ps ts Hp Hi Hi' Ht.
  rewrite <- (map_map swap23 ftri_row) in Hi'.
  assert (Ht' : Forall (tri_in (length ps)) (map swap23 ts)).
  { apply Forall_forall; intros t Hin; apply in_map_iff in Hin; destruct Hin as (t' & <- & Hin); rewrite Forall_forall in Ht; specialize (Ht t' Hin).
    destruct t' as [[i j] k]; destruct Ht as (H1 & H2 & H3); cbn; auto. }
  do 2 eexists; split; [apply (normals_f64 L positions indices ps ts Hp Hi Ht)|]; split; [apply (normals_f64 L positions indices' ps _ Hp Hi' Ht')|].
  pose proof (repr_rows _ _ _ Hp) as Rr; clear Hp Hi Hi' Ht'; induction Ht as [|t ts H _ IH]; cbn [map]; constructor; [|exact IH].
  destruct (at_len ps t Rr H) as (L1 & L2 & L3 & _); destruct t as [[i j] k]; cbn [swap23 at1 at2 at3] in *.
  destruct (len3 _ L1) as (p0 & p1 & p2 & ->); destruct (len3 _ L2) as (q0 & q1 & q2 & ->); destruct (len3 _ L3) as (r0 & r1 & r2 & ->).
  unfold normal3; cbn [sub3 map2 cross3]; cbn [n_sub n_mul F64N f64_num].
  generalize (f64_sub q0 p0) (f64_sub q1 p1) (f64_sub q2 p2) (f64_sub r0 p0) (f64_sub r1 p1) (f64_sub r2 p2); intros u0 u1 u2 v0 v1 v2.
  rewrite (f64_mul_comm v1 u2), (f64_mul_comm v2 u1), (f64_mul_comm v2 u0), (f64_mul_comm v0 u2), (f64_mul_comm v0 u1), (f64_mul_comm v1 u0).
  repeat (apply Forall2_cons; [apply sub_anti_zeq|]); apply Forall2_nil.
Qed.
Print Assumptions C140_swap.

(** ** rounding error *)
Open Scope R_scope.
Definition bounded (M : R) (v : list F64) : Prop := Forall (fun x => is_finite x = true /\ Rabs (B2R x) <= M) v.

Section Error.
  Variable M : R.
  Hypothesis HM : bpow radix2 (-490) <= M <= bpow radix2 490.
  Lemma M_bounds : 0 < M /\ lo <= M /\ 4 * M <= hi /\ lo <= M * M /\ 16 * (M * M) <= hi /\ 0 < uu <= / 1000000 /\ 0 < M * M /\ 0 < uu * (M * M) <= / 1000000 * (M * M) /\ 0 < uu * M <= / 1000000 * M.
  Proof.
    destruct HM as [H1 H2]; assert (P : 0 < M) by (pose proof (bpow_gt_0 radix2 (-490)); lra).
    assert (L2 : bpow radix2 (-980) <= M * M).
    { change (-980)%Z with (-490 + -490)%Z; rewrite bpow_plus; pose proof (bpow_ge_0 radix2 (-490)); apply Rmult_le_compat; lra. }
    assert (U2 : M * M <= bpow radix2 980) by (change 980%Z with (490 + 490)%Z; rewrite bpow_plus; apply Rmult_le_compat; lra).
    assert (E : hi = 1024 * (1024 * bpow radix2 980)) by (unfold hi; change 1000%Z with (10 + (10 + 980))%Z; rewrite !bpow_plus; change (bpow radix2 10) with 1024; ring).
    assert (lo <= bpow radix2 (-980)) by (unfold lo; apply bpow_le; lia).
    assert (lo <= bpow radix2 (-490)) by (unfold lo; apply bpow_le; lia).
    assert (bpow radix2 490 <= bpow radix2 980) by (apply bpow_le; lia).
    assert (U : 0 < uu <= / 1000000) by (unfold uu; split; [apply Rinv_0_lt_compat; lra|apply Rinv_le; lra]).
    assert (Q : 0 < M * M) by (apply Rmult_lt_0_compat; lra).
    pose proof (bpow_gt_0 radix2 980).
    repeat split; try lra; try (apply Rmult_lt_0_compat; lra); apply Rmult_le_compat_r; lra.
  Qed.
  Lemma edge_near p q : is_finite p = true -> Rabs (B2R p) <= M -> is_finite q = true -> Rabs (B2R q) <= M ->
    nearby (f64_sub q p) (B2R q - B2R p) (2 * uu * M) /\ Rabs (B2R q - B2R p) <= 2 * M.
  Proof.
    intros Fp Bp Fq Bq; pose proof M_bounds as (P & L1 & L2 & _); assert (A : Rabs (B2R q - B2R p) <= 2 * M) by (apply abs_le in Bp, Bq; apply abs_le; lra).
    split; [|exact A]; apply (sub_near _ _ _ _ 0 0 (2 * M)); auto using nearby_self; lra.
  Qed.
  Lemma component_near u v w z eu ev ew ez :
    nearby u eu (2 * uu * M) -> nearby v ev (2 * uu * M) -> nearby w ew (2 * uu * M) -> nearby z ez (2 * uu * M) ->
    Rabs eu <= 2 * M -> Rabs ev <= 2 * M -> Rabs ew <= 2 * M -> Rabs ez <= 2 * M ->
    nearby (f64_sub (f64_mul u v) (f64_mul w z)) (eu * ev - ew * ez) (33 * uu * (M * M)).
  Proof.
    intros Nu Nv Nw Nz Bu Bv Bw Bz; pose proof M_bounds as (P & _ & _ & L1 & L2 & U & Q & K & K1).
    assert (K2 : uu * (uu * (M * M)) <= / 1000000 * (uu * (M * M))) by (apply Rmult_le_compat_r; lra).
    assert (Pr : forall x y ex ey, nearby x ex (2 * uu * M) -> nearby y ey (2 * uu * M) -> Rabs ex <= 2 * M -> Rabs ey <= 2 * M ->
      nearby (f64_mul x y) (ex * ey) (121 / 10 * uu * (M * M))).
    { intros x y ex ey Nx Ny Bx By; apply (mul_near _ _ _ _ (2 * uu * M) (2 * uu * M) (2 * M) (2 * M) (401 / 100 * (M * M))); auto; lra. }
    pose proof (prod_le _ _ _ _ Bu Bv) as P1; pose proof (prod_le _ _ _ _ Bw Bz) as P2; apply abs_le in P1, P2.
    apply (sub_near _ _ _ _ (121 / 10 * uu * (M * M)) (121 / 10 * uu * (M * M)) (81 / 10 * (M * M))); auto; try lra.
    assert (Rabs (eu * ev - ew * ez) <= 8 * (M * M)) by (apply abs_le; lra); lra.
  Qed.
End Error.

(** coordinates at most M: every component of the normal is a number, at most 33 u M^2 away from that of the exact normal *)
Theorem C140_error :
  forall (L : Libm) (positions indices : Serie F64) ps (ts : list tri) M,
  repr positions 3 ps -> repr indices 3 (map ftri_row ts) -> Forall (tri_in (length ps)) ts ->
  bpow radix2 (-490) <= M <= bpow radix2 490 -> Forall (bounded M) ps ->
  exists ns, @normals F64 (f64_num L) positions indices = Ok (mk 3 ns 3) /\
    Forall2 (fun t n => Forall2 (fun x e => is_finite x = true /\ Rabs (B2R x - e) <= 33 * uu * (M * M))
      n (@cross3 R r_num (edge (values (at1 ps t)) (values (at2 ps t))) (edge (values (at1 ps t)) (values (at3 ps t))))) ts ns.
Proof.
  intros L positions indices ps ts M Hp Hi Ht HM HB; eexists; split; [apply (normals_f64 L positions indices ps ts Hp Hi Ht)|].
  pose proof (repr_rows _ _ _ Hp) as Rr; clear Hp Hi; induction Ht as [|t ts H _ IH]; cbn [map]; constructor; [|exact IH].
  destruct (at_len ps t Rr H) as (L1 & L2 & L3 & I1 & I2 & I3); rewrite Forall_forall in HB; apply HB in I1, I2, I3.
  revert I1 I2 I3; destruct (len3 _ L1) as (p0 & p1 & p2 & ->); destruct (len3 _ L2) as (q0 & q1 & q2 & ->); destruct (len3 _ L3) as (r0 & r1 & r2 & ->).
  unfold bounded; intros I1 I2 I3; rewrite Forall_forall in I1, I2, I3.
  destruct (I1 p0 ltac:(simpl; tauto)) as [Fp0 Bp0]; destruct (I1 p1 ltac:(simpl; tauto)) as [Fp1 Bp1]; destruct (I1 p2 ltac:(simpl; tauto)) as [Fp2 Bp2].
  destruct (I2 q0 ltac:(simpl; tauto)) as [Fq0 Bq0]; destruct (I2 q1 ltac:(simpl; tauto)) as [Fq1 Bq1]; destruct (I2 q2 ltac:(simpl; tauto)) as [Fq2 Bq2].
  destruct (I3 r0 ltac:(simpl; tauto)) as [Fr0 Br0]; destruct (I3 r1 ltac:(simpl; tauto)) as [Fr1 Br1]; destruct (I3 r2 ltac:(simpl; tauto)) as [Fr2 Br2].
  destruct (edge_near M HM p0 q0 Fp0 Bp0 Fq0 Bq0) as [U0 A0]; destruct (edge_near M HM p1 q1 Fp1 Bp1 Fq1 Bq1) as [U1 A1]; destruct (edge_near M HM p2 q2 Fp2 Bp2 Fq2 Bq2) as [U2 A2].
  destruct (edge_near M HM p0 r0 Fp0 Bp0 Fr0 Br0) as [V0 C0]; destruct (edge_near M HM p1 r1 Fp1 Bp1 Fr1 Br1) as [V1 C1]; destruct (edge_near M HM p2 r2 Fp2 Bp2 Fr2 Br2) as [V2 C2].
  unfold normal3; cbn [sub3 map2 cross3 edge map]; cbn [n_sub n_mul F64N f64_num r_num].
  repeat (apply Forall2_cons; [apply component_near; assumption|]); apply Forall2_nil.
Qed.
Print Assumptions C140_error.

(** ** a triangle with two equal vertices has the normal zero *)
Lemma zero_l (x y : F64) : is_zero x -> is_finite y = true -> is_zero (f64_mul x y).
Proof. intros [s ->] F; destruct y as [t|t| |t m e H]; try discriminate; eexists; reflexivity. Qed.
Lemma zero_sub (x y : F64) : is_zero x -> is_zero y -> is_zero (f64_sub x y).
Proof. intros [s ->] [t ->]; apply f64_sub_zero; auto. Qed.
Theorem C140_degenerate :
  forall (L : Libm) (positions indices : Serie F64) ps (ts : list tri) M,
  repr positions 3 ps -> repr indices 3 (map ftri_row ts) -> Forall (tri_in (length ps)) ts ->
  bpow radix2 (-490) <= M <= bpow radix2 490 -> Forall (bounded M) ps ->
  exists ns, @normals F64 (f64_num L) positions indices = Ok (mk 3 ns 3) /\
    Forall2 (fun t n => at1 ps t = at2 ps t \/ at2 ps t = at3 ps t \/ at1 ps t = at3 ps t -> Forall is_zero n) ts ns.
Proof.
  intros L positions indices ps ts M Hp Hi Ht HM HB; eexists; split; [apply (normals_f64 L positions indices ps ts Hp Hi Ht)|].
  pose proof (repr_rows _ _ _ Hp) as Rr; clear Hp Hi; induction Ht as [|t ts H _ IH]; cbn [map]; constructor; [|exact IH].
  destruct (at_len ps t Rr H) as (L1 & L2 & L3 & I1 & I2 & I3); rewrite Forall_forall in HB; apply HB in I1, I2, I3.
  revert I1 I2 I3; destruct (len3 _ L1) as (p0 & p1 & p2 & ->); destruct (len3 _ L2) as (q0 & q1 & q2 & ->); destruct (len3 _ L3) as (r0 & r1 & r2 & ->).
  unfold bounded; intros I1 I2 I3; rewrite Forall_forall in I1, I2, I3.
  destruct (I1 p0 ltac:(simpl; tauto)) as [Fp0 Bp0]; destruct (I1 p1 ltac:(simpl; tauto)) as [Fp1 Bp1]; destruct (I1 p2 ltac:(simpl; tauto)) as [Fp2 Bp2].
  destruct (I2 q0 ltac:(simpl; tauto)) as [Fq0 Bq0]; destruct (I2 q1 ltac:(simpl; tauto)) as [Fq1 Bq1]; destruct (I2 q2 ltac:(simpl; tauto)) as [Fq2 Bq2].
  destruct (I3 r0 ltac:(simpl; tauto)) as [Fr0 Br0]; destruct (I3 r1 ltac:(simpl; tauto)) as [Fr1 Br1]; destruct (I3 r2 ltac:(simpl; tauto)) as [Fr2 Br2].
  unfold normal3; cbn [sub3 map2 cross3]; cbn [n_sub n_mul F64N f64_num].
  assert (S : forall x : F64, is_finite x = true -> is_zero (f64_sub x x)) by (intros; apply f64_sub_zero; auto).
  destruct (edge_near M HM p0 q0 Fp0 Bp0 Fq0 Bq0) as [U0 A0]; destruct (edge_near M HM p1 q1 Fp1 Bp1 Fq1 Bq1) as [U1 A1]; destruct (edge_near M HM p2 q2 Fp2 Bp2 Fq2 Bq2) as [U2 A2].
  destruct (edge_near M HM p0 r0 Fp0 Bp0 Fr0 Br0) as [V0 C0]; destruct (edge_near M HM p1 r1 Fp1 Bp1 Fr1 Br1) as [V1 C1]; destruct (edge_near M HM p2 r2 Fp2 Bp2 Fr2 Br2) as [V2 C2].
  intros [E|[E|E]]; injection E as E0 E1 E2; subst.
  - assert (G : forall (x y u v : F64), is_zero x -> is_zero y -> is_finite u = true -> is_finite v = true -> is_zero (f64_sub (f64_mul x u) (f64_mul y v)))
      by (intros; apply zero_sub; apply zero_l; assumption).
    repeat (apply Forall_cons; [apply G; auto; try apply V0; try apply V1; try apply V2|]); apply Forall_nil.
  - assert (G : forall (x y : F64) ex ey, nearby x ex (2 * uu * M) -> nearby y ey (2 * uu * M) -> Rabs ex <= 2 * M -> Rabs ey <= 2 * M -> is_zero (f64_sub (f64_mul x y) (f64_mul y x))).
    { intros x y ex ey Nx Ny Bx By; rewrite (f64_mul_comm y x); apply S.
      pose proof (M_bounds M HM) as (P & _ & _ & X1 & X2 & U & Q & K & K1).
      assert (K2 : uu * (uu * (M * M)) <= / 1000000 * (uu * (M * M))) by (apply Rmult_le_compat_r; lra).
      eapply (mul_near x y ex ey (2 * uu * M) (2 * uu * M) (2 * M) (2 * M) (401 / 100 * (M * M))); auto; [| |apply Rle_refl]; [|lra].
      replace ((2 * M + 2 * uu * M) * (2 * M + 2 * uu * M)) with (4 * (M * M) + 8 * (uu * (M * M)) + 4 * (uu * (uu * (M * M)))) by ring; lra. }
    apply Forall_cons; [eapply G; [exact U1|exact U2|exact A1|exact A2]|]; apply Forall_cons; [eapply G; [exact U2|exact U0|exact A2|exact A0]|].
    apply Forall_cons; [eapply G; [exact U0|exact U1|exact A0|exact A1]|]; apply Forall_nil.
  - assert (G : forall (x y u v : F64), is_zero x -> is_zero y -> is_finite u = true -> is_finite v = true -> is_zero (f64_sub (f64_mul u x) (f64_mul v y)))
      by (intros; apply zero_sub; rewrite f64_mul_comm; apply zero_l; assumption).
    repeat (apply Forall_cons; [apply G; auto; try apply U0; try apply U1; try apply U2|]); apply Forall_nil.
Qed.
Print Assumptions C140_degenerate.

(** ** exchanging the first two vertices changes more than the sign; three points on a line may have a normal that is not zero *)
Definition tenth (z : Z) : F64 := f64_div #z #10.
Definition three : list (list F64) := [map tenth [1; -2; 1]; map tenth [-2; 2; 0]; map tenth [1; -1; 2]]%Z.
Definition tiny52 : F64 := f64_div #1 #(2 ^ 52).
Definition on_a_line : list (list F64) := [[#3; #27; #0]; [tiny52; f64_mul #9 tiny52; #0]; [#1; #9; #0]].
Theorem C140_refuted :
  (let ts := [(0, 1, 2); (1, 0, 2)]%nat in
   repr (mk 3 three 3) 3 three /\ repr (mk 3 (map ftri_row ts) 3) 3 (map ftri_row ts) /\ Forall (tri_in (length three)) ts /\
   exists n n', (forall L : Libm, @normals F64 (f64_num L) (mk 3 three 3) (mk 3 (map ftri_row ts) 3) = Ok (mk 3 [n; n'] 3)) /\
     is_finite (nth 2 n #0) = true /\ Beqb (nth 2 n #0) (Bopp (nth 2 n' #0)) = false) /\
  (let ts := [(0, 1, 2)]%nat in
   repr (mk 3 on_a_line 3) 3 on_a_line /\ repr (mk 3 (map ftri_row ts) 3) 3 (map ftri_row ts) /\ Forall (tri_in (length on_a_line)) ts /\
   @cross3 R r_num (edge (values (nth 0 on_a_line [])) (values (nth 1 on_a_line []))) (edge (values (nth 0 on_a_line [])) (values (nth 2 on_a_line []))) = [0; 0; 0] /\
   exists n, (forall L : Libm, @normals F64 (f64_num L) (mk 3 on_a_line 3) (mk 3 (map ftri_row ts) 3) = Ok (mk 3 [n] 3)) /\
     is_finite (nth 2 n #0) = true /\ Beqb (nth 2 n #0) #0 = false).
Proof.
  split; cbv zeta.
  - assert (R1 : repr (mk 3 three 3) 3 three) by repr_ex.
    assert (R2 : repr (mk 3 (map ftri_row [(0, 1, 2); (1, 0, 2)]%nat) 3) 3 (map ftri_row [(0, 1, 2); (1, 0, 2)]%nat)) by repr_ex.
    assert (R3 : Forall (tri_in (length three)) [(0, 1, 2); (1, 0, 2)]%nat) by (repeat constructor; cbn; lia).
    split; [exact R1|]; split; [exact R2|]; split; [exact R3|].
    do 2 eexists; split; [intros L; apply (normals_f64 L _ _ three _ R1 R2 R3)|].
    split; vm_compute; reflexivity.
  - assert (R1 : repr (mk 3 on_a_line 3) 3 on_a_line) by repr_ex.
    assert (R2 : repr (mk 3 (map ftri_row [(0, 1, 2)]%nat) 3) 3 (map ftri_row [(0, 1, 2)]%nat)) by repr_ex.
    assert (R3 : Forall (tri_in (length on_a_line)) [(0, 1, 2)]%nat) by (repeat constructor; cbn; lia).
    split; [exact R1|]; split; [exact R2|]; split; [exact R3|]; split.
    + assert (T : B2R (f64_mul #9 tiny52) = 9 * B2R tiny52).
      { assert (X : B2SF tiny52 = SpecFloat.S754_finite false 4503599627370496 (-104)) by (vm_compute; reflexivity).
        assert (Y : B2SF (f64_mul #9 tiny52) = SpecFloat.S754_finite false 5066549580791808 (-101)) by (vm_compute; reflexivity).
        rewrite <- !SF2R_B2SF, X, Y; unfold SF2R, F2R; cbn [Fnum Fexp cond_Zopp].
        change (-101)%Z with (3 + -104)%Z; rewrite bpow_plus; change (bpow radix2 3) with 8; generalize (bpow radix2 (-104)); intros b; lra. }
      destruct (f64_of_Z_correct 3 ltac:(lia)) as (E3 & _); destruct (f64_of_Z_correct 27 ltac:(lia)) as (E27 & _);
      destruct (f64_of_Z_correct 1 ltac:(lia)) as (E1 & _); destruct (f64_of_Z_correct 9 ltac:(lia)) as (E9 & _); destruct (f64_of_Z_correct 0 ltac:(lia)) as (E0 & _).
      unfold on_a_line; cbn [nth map]; rewrite T, E3, E27, E1, E9, E0; generalize (B2R tiny52); intros b.
      cbn [edge map2 cross3 n_sub n_mul r_num]; apply list3; ring.
    + eexists; split; [intros L; apply (normals_f64 L _ _ on_a_line _ R1 R2 R3)|].
      split; vm_compute; reflexivity.
Qed.
Print Assumptions C140_refuted.

(** the hypotheses are met by the three points above, with M = 1 *)
Example C140_ex : bpow radix2 (-490) <= 1 <= bpow radix2 490 /\ Forall (bounded 1) three.
Proof.
  split; [change 1 with (bpow radix2 0); split; apply bpow_le; lia|].
  assert (T : forall z, In z [-2; -1; 0; 1; 2]%Z -> is_finite (tenth z) = true /\ Rabs (B2R (tenth z)) <= 1).
  { intros z Hz; assert (F : is_finite (tenth z) = true /\ Bleb (tenth z) #1 = true /\ Bleb #(-1) (tenth z) = true).
    { cbn in Hz; destruct Hz as [<-|[<-|[<-|[<-|[<-|[]]]]]]; (split; [vm_compute; reflexivity|split; vm_compute; reflexivity]). }
    destruct F as (F & U & V).
    destruct (f64_of_Z_correct 1 ltac:(lia)) as (E1 & F1 & _); destruct (f64_of_Z_correct (-1) ltac:(lia)) as (E2 & F2 & _).
    apply (le_ok _ _ F F1) in U; apply (le_ok _ _ F2 F) in V; rewrite E1 in U; rewrite E2 in V; split; [exact F|]; apply abs_le; lra. }
  unfold three; cbn [map]; repeat (apply Forall_cons; [unfold bounded; repeat (apply Forall_cons; [apply T; simpl; tauto|]); apply Forall_nil|]); apply Forall_nil.
Qed.
