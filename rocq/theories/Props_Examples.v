(** * C121, C122, C123: the example programs. *)
From Verif Require Import Base Num Serie Spec BaseFacts SerieFacts Functional FunctionalFacts Utils Mathf MathFacts AlgebraFacts Stats StatsFacts Geo Eigen Exec Examples.
From Verif Require Import F64 F64Facts F64Arith F64Round F64Sum RNum LinSpec Props_Functional Props_Grid Props_Parallel Props_Eigen.
From Flocq Require Import Core IEEE754.BinarySingleNaN.
From Coq Require Import Reals Lra Psatz.
Open Scope Z_scope.
Opaque f64_of_Z.

(** ** C121: parallel-postprocess *)
Section Post.
  Context {T : Type} {NT : Num T}.

  (** a source with a position and a vector of three numbers *)
  Definition well_formed (s : @Source T) : Prop := len (src_pos s) = 3 /\ len (src_U s) = 3.
  Definition st (s : @Source T) (at_ : list T) : list T := match stress s at_ with Ok t => t | _ => [] end.

  Lemma stress_ok s at_ : well_formed s -> len at_ = 3 -> stress s at_ = Ok (st s at_) /\ len (st s at_) = 6.
  Proof.
    intros [Hp Hu] Ha; destruct s as [p u]; cbn [src_pos src_U] in *.
    destruct (len3 p Hp) as (p0 & p1 & p2 & ->); destruct (len3 u Hu) as (u0 & u1 & u2 & ->); destruct (len3 at_ Ha) as (x & y & z & ->).
    unfold st, stress; cbn [src_pos src_U].
    change (rd [x; y; z] 0) with (Ok x); change (rd [x; y; z] 1) with (Ok y); change (rd [x; y; z] 2) with (Ok z).
    change (rd [p0; p1; p2] 0) with (Ok p0); change (rd [p0; p1; p2] 1) with (Ok p1); change (rd [p0; p1; p2] 2) with (Ok p2).
    change (rd [u0; u1; u2] 0) with (Ok u0); change (rd [u0; u1; u2] 1) with (Ok u1); change (rd [u0; u1; u2] 2) with (Ok u2).
    cbn [obind]; destruct (n_ltb _ _); split; reflexivity.
  Qed.

  (** the sum over the sources, from the first to the last, starting with 0 *)
  Definition summed (sources : list (@Source T)) (at_ : list T) : list T :=
    map (fun c => fold_left n_add (map (fun s => nth c (st s at_) n0) sources) n0) (seq 0 6).

  Lemma model_at_ok sources at_ : Forall well_formed sources -> len at_ = 3 -> model_at sources at_ = Ok (summed sources at_).
  Proof.
    intros Hw Ha; unfold model_at.
    assert (G : forall l (acc : list T), Forall well_formed l -> len acc = 6 ->
      foldO (fun s source => let* t := stress source at_ in upd_each 6 (fun i x => let* y := rd t i in Ok (n_add x y)) s) l acc
      = Ok (map (fun c => fold_left n_add (map (fun s => nth c (st s at_) n0) l) (nth c acc n0)) (seq 0 6))).
    { induction l as [|s l IH]; intros acc Hl Lacc; cbn [foldO].
      - destruct (len6 acc Lacc) as (a & b & c & d & e & f & ->); reflexivity.
      - inversion Hl as [|? ? Ws Hl']; subst; destruct (stress_ok s at_ Ws Ha) as [Es Ls]; rewrite Es; cbn [obind].
        assert (U : upd_each 6 (fun i x => let* y := rd (st s at_) i in Ok (n_add x y)) acc
                    = Ok (map (fun c => n_add (nth c acc n0) (nth c (st s at_) n0)) (seq 0 6))).
        { rewrite <- Lacc at 1; apply upd_each_ok; [rewrite map_length, seq_length; unfold len in Lacc; lia|].
          intros j x y Hx Hy; assert (Hj : (j < 6)%nat) by (pose proof (nth_error_lt _ _ _ Hx); unfold len in Lacc; lia).
          rewrite nth_error_map, (nth_error_nth' _ O) in Hy by (rewrite seq_length; exact Hj); rewrite seq_nth in Hy by exact Hj.
          cbn [option_map Nat.add] in Hy; injection Hy as <-; rewrite (nth_error_nth _ _ _ Hx).
          assert (Ht : nth_error (st s at_) j = Some (nth j (st s at_) n0)) by (apply nth_error_nth'; unfold len in Ls; lia).
          rewrite (rd_nat _ _ _ Ht); reflexivity. }
        rewrite U; cbn [obind]; rewrite IH; [|exact Hl'|reflexivity].
        reflexivity. }
    apply (G sources [n0; n0; n0; n0; n0; n0] Hw eq_refl).
  Qed.

  Lemma model_call_ok sources s rows : repr s 3 rows -> rows <> [] -> Forall well_formed sources ->
    model_call sources s = Ok (mk 6 (map (summed sources) rows) 3).
  Proof.
    intros Hs Hne Hw; pose proof (repr_rows _ _ _ Hs) as Rr; unfold rows_of_size in Rr; rewrite Forall_forall in Rr.
    apply (run_map_vv _ s 3 rows); auto; [lia|apply map_length| |].
    - apply Forall_forall; intros y Hy; apply in_map_iff in Hy; destruct Hy as (r & <- & _); reflexivity.
    - intros j r y Hj Hy; rewrite nth_error_map, Hj in Hy; injection Hy as <-; unfold lift.
      rewrite (model_at_ok sources r Hw (Rr r (nth_error_In _ _ Hj))); reflexivity.
  Qed.

  Lemma points_generic npts a0 a1 a2 b0 b1 b2 : good_npts npts ->
    exists X Y Z rows, from_points npts [a0; a1; a2] [b0; b1; b2] = Ok (mk 3 rows 3) /\ x_fastest (pts npts 0) (pts npts 1) (pts npts 2) X Y Z rows.
  Proof.
    intros G; destruct (total_points_ok npts G) as (Et & Er & Hm); pose proof G as (Hl & Hf & Hp).
    unfold from_points; destruct (Z.eqb_spec (len npts) 0); [lia|]; destruct (Z.ltb_spec 3 (len npts)); [lia|]; cbn [orb].
    change (negb (len [a0; a1; a2] =? 3) || negb (len [b0; b1; b2] =? 3))%bool with false; cbv iota zeta.
    rewrite (spacings_ok npts _ (fun d => n_sub (nth d [b0; b1; b2] n0) (nth d [a0; a1; a2] n0))); [|exact G|intros d Hd; destruct d as [|[|[|?]]]; try lia; reflexivity].
    cbn [map seq obind nth]; rewrite Et, Er.
    do 3 eexists; apply fill_grid_ok; [|exact Hm]; intros i j k _ _ _; reflexivity.
  Qed.
  Lemma x_fastest_rows q0 q1 q2 (X Y Z : nat -> T) rows : x_fastest q0 q1 q2 X Y Z rows -> rows_of_size 3 rows.
  Proof.
    intros [L H]; apply Forall_forall; intros r Hr; apply In_nth_error in Hr; destruct Hr as [m Hm].
    pose proof (nth_error_lt _ _ _ Hm) as Hlt; rewrite L in Hlt.
    assert (N0 : q0 <> 0%nat) by (intros ->; lia); assert (N1 : q1 <> 0%nat) by (intros ->; lia).
    assert (E : m = (m mod q0 + q0 * ((m / q0) mod q1 + q1 * (m / q0 / q1)))%nat).
    { rewrite (Nat.add_comm ((m / q0) mod q1)), <- (Nat.div_mod (m / q0) q1 N1), Nat.add_comm; apply Nat.div_mod; exact N0. }
    assert (K : (m / q0 / q1 < q2)%nat) by (rewrite Nat.div_div by assumption; apply Nat.div_lt_upper_bound; [apply Nat.neq_mul_0; auto|exact Hlt]).
    rewrite E, (H (m mod q0)%nat ((m / q0) mod q1)%nat (m / q0 / q1)%nat) in Hm; [injection Hm as <-; reflexivity| | |exact K]; apply Nat.mod_upper_bound; assumption.
  Qed.
End Post.

(** The functor may be interrupted anywhere; it comes to what [Model::operator()] returns.  Then parallel_execute returns what a single call
    returns, to the last bit, for every number of cores and every schedule; item by item it is the sum over the sources in order. *)
Theorem C121_parallel :
  forall (T : Type) (NT : Num T) (J : Type) (init : Serie T -> J) (step : J -> J + outcome (Serie T)) sources s rows n sched o,
  (forall p, comes_to step (init p) (model_call sources p)) -> Forall well_formed sources ->
  repr s 3 rows -> rows <> [] -> 6 * len rows < 2 ^ 32 -> 1 <= n < 2 ^ 32 -> parallel_execute init step sched s n = Some o ->
  o = model_call sources s /\
  exists out, o = Ok (mk 6 out 3) /\ length out = length rows /\
  forall i at_ v, nth_error rows i = Some at_ -> nth_error out i = Some v -> len v = 6 /\
    exists ts, Forall2 (fun src t => stress src at_ = Ok t /\ len t = 6) sources ts /\
    forall c, (c < 6)%nat -> nth c v n0 = fold_left n_add (map (fun t => nth c t n0) ts) n0.
Proof.
  intros T NT J init step sources s rows n sched o Hf Hw Hs Hne Hm Hn Ho.
  pose proof (repr_rows _ _ _ Hs) as Rr; unfold rows_of_size in Rr; rewrite Forall_forall in Rr.
  pose proof (model_call_ok sources s rows Hs Hne Hw) as E.
  assert (Eo : o = Ok (mk 6 (map (summed sources) rows) 3)).
  { destruct (Z.eq_dec n 1) as [->|Hn1].
    - unfold parallel_execute in Ho; simpl in Ho; apply run_alone_comes_to in Ho.
      rewrite (comes_to_unique step _ _ Ho _ (Hf s)); exact E.
    - destruct (C40_item_wise T NT J init step s 3 rows n (summed sources) 6 sched o Hs Hn ltac:(lia) Hm) as (r & -> & _ & Er); [|exact Ho|rewrite Er by lia; reflexivity].
      intros p part Hp Hl Hnp; exists (mk 6 (map (summed sources) part) 3); split.
      + rewrite <- (model_call_ok sources p part Hp (Hnp Hne) Hw); apply Hf.
      + apply repr_mk; rewrite ?len_map; try lia; [apply Forall_forall; intros y Hy; apply in_map_iff in Hy; destruct Hy as (r & <- & _); reflexivity]. }
  split; [rewrite Eo, E; reflexivity|]; exists (map (summed sources) rows); split; [exact Eo|]; split; [apply map_length|].
  intros i at_ v Hi Hv; rewrite nth_error_map, Hi in Hv; injection Hv as <-; split; [reflexivity|].
  pose proof (Rr at_ (nth_error_In _ _ Hi)) as La; exists (map (fun src => st src at_) sources); split.
  - clear -Hw La; induction Hw as [|src l W Hw IH]; cbn [map]; constructor; [apply stress_ok; assumption|exact IH].
  - intros c Hc; rewrite map_map; unfold summed.
    destruct c as [|[|[|[|[|[|?]]]]]]; try lia; reflexivity.
Qed.
Print Assumptions C121_parallel.
Example C121_ex :
  let sources := [mkSource [#0; #0; #0] [#1; #0; #0]; mkSource [#0; #0; #1] [#0; #1; #0]] in
  let s := mk 3 [[#1; #0; #0]; [#0; #0; #2]; [#0; #0; #0]] 3 in
  let init := fun p : Serie F64 => (1%nat, p) in
  let step := fun j : nat * Serie F64 => match fst j with S n => inl (n, snd j) | O => inr (@model_call F64 F64N sources (snd j)) end in
  (forall p, comes_to step (init p) (@model_call F64 F64N sources p)) /\ Forall (@well_formed F64) sources /\ repr s 3 [[#1; #0; #0]; [#0; #0; #2]; [#0; #0; #0]] /\
  match @parallel_execute F64 F64N _ init step [1; 0; 0; 1]%nat s 2 with Some (Ok r) => itemSize_ r = 6 /\ len (s_ r) = 18 | _ => False end.
Proof.
  split; [|split; [|split]].
  - intros p; eapply ct_step; [reflexivity|]; apply ct_end; reflexivity.
  - repeat constructor.
  - repr_ex.
  - vm_compute; split; reflexivity.
Qed.

(** The sources of the model: ten thousand, at the points of a grid of 100 x 100 points, whatever number is asked for. *)
Theorem C121_sources :
  forall (T : Type) (NT : Num T) nbSources, exists sources rows,
  model_sources nbSources = Ok sources /\ len sources = 10000 /\ Forall well_formed sources /\
  from_points [100; 100] [n_of_Z (-1); n_of_Z (-1); n_of_Z (-1)] [n_of_Z 1; n_of_Z 1; n_of_Z 1] = Ok (mk 3 rows 3) /\
  map src_pos sources = rows /\ Forall (fun src => src_U src = [n_of_Z 1; n_of_Z 0; n_of_Z 0]) sources.
Proof.
  intros T NT nb; destruct (points_generic [100; 100] (n_of_Z (-1)) (n_of_Z (-1)) (n_of_Z (-1)) (n_of_Z 1) (n_of_Z 1) (n_of_Z 1)) as (X & Y & W & rows & E & F).
  { split; [change (1 <= 2 <= 3); lia|]; split; [repeat constructor; lia|]; change (3 * 10000 < 4294967296); lia. }
  pose proof (x_fastest_rows _ _ _ _ _ _ _ F) as Rr.
  assert (L : len rows = 10000).
  { destruct F as [F _]; unfold len; rewrite F, !Nat2Z.inj_mul; unfold pts; rewrite !Z2Nat.id by (cbn [nth]; lia); reflexivity. }
  assert (Hr : repr (mk 3 rows 3) 3 rows) by (apply repr_mk; auto; rewrite ?L; lia).
  set (g := fun pos => @mkSource T pos [n_of_Z 1; n_of_Z 0; n_of_Z 0]).
  assert (S : forEach_v (fun pos _ st => (Ok tt, st ++ [g pos])) (mk 3 rows 3) [] = (Ok tt, map g rows)).
  { destruct (calls_state (fun pos (_ : Z) st => (Ok tt, st ++ [g pos])) (fun st pos => st ++ [g pos]) (fun _ => True) rows 0 [] I) as [C _]; [auto|].
    rewrite (forEach_v_calls _ _ _ _ _ _ _ Hr ltac:(lia) C).
    assert (G : forall l acc, fold_left (fun st pos => st ++ [g pos]) l acc = acc ++ map g l)
      by (induction l as [|x l IH]; intros acc; cbn [fold_left map]; [rewrite app_nil_r; reflexivity|rewrite IH, <- app_assoc; reflexivity]).
    rewrite G; reflexivity. }
  exists (map g rows), rows; split; [unfold model_sources; rewrite E; cbn [obind]; match goal with |- context [forEach_v ?f ?a ?b] => change (forEach_v f a b) with (forEach_v (fun pos (_ : Z) st => (Ok tt, st ++ [g pos])) (mk 3 rows 3) []) end; rewrite S; reflexivity|].
  split; [rewrite len_map; exact L|]; split; [|split; [exact E|split; [rewrite map_map; apply map_id|]]].
  - apply Forall_forall; intros x Hx; apply in_map_iff in Hx; destruct Hx as (p & <- & Hp); split; [|reflexivity].
    unfold rows_of_size in Rr; rewrite Forall_forall in Rr; apply Rr; exact Hp.
  - apply Forall_forall; intros x Hx; apply in_map_iff in Hx; destruct Hx as (p & <- & Hp); reflexivity.
Qed.
Print Assumptions C121_sources.

(** as many sources as asked for: false *)
Definition honours_count (T : Type) (NT : Num T) : Prop :=
  forall nbSources sources, 0 <= nbSources < 2 ^ 32 -> @model_sources T NT nbSources = Ok sources -> len sources = nbSources.
Theorem C121_count_refuted : forall (T : Type) (NT : Num T), ~ honours_count T NT.
Proof.
  intros T NT H; destruct (C121_sources T NT 1) as (sources & rows & E & L & _).
  specialize (H 1 sources ltac:(lia) E); rewrite L in H; discriminate H.
Qed.
Print Assumptions C121_count_refuted.

(** The program: a million tensors, those of one sequential call. *)
Theorem C121_main :
  forall (T : Type) (NT : Num T), exists sources rows,
  model_sources 10000 = Ok sources /\
  from_points [100; 100; 100] [n_of_Z (-10); n_of_Z (-10); n_of_Z (-10)] [n_of_Z 10; n_of_Z 10; n_of_Z 10] = Ok (mk 3 rows 3) /\
  len rows = 1000000 /\
  forall (J : Type) (init : Serie T -> J) (step : J -> J + outcome (Serie T)) sched o,
  (forall p, comes_to step (init p) (model_call sources p)) -> parallel_execute init step sched (mk 3 rows 3) 12 = Some o ->
  o = model_call sources (mk 3 rows 3) /\ exists out, o = Ok (mk 6 out 3) /\ len out = 1000000.
Proof.
  intros T NT; destruct (C121_sources T NT 10000) as (sources & _ & Es & _ & Hw & _).
  destruct (points_generic [100; 100; 100] (n_of_Z (-10)) (n_of_Z (-10)) (n_of_Z (-10)) (n_of_Z 10) (n_of_Z 10) (n_of_Z 10)) as (X & Y & W & rows & E & F).
  { split; [change (1 <= 3 <= 3); lia|]; split; [repeat constructor; lia|]; change (3 * 1000000 < 4294967296); lia. }
  pose proof (x_fastest_rows _ _ _ _ _ _ _ F) as Rr.
  assert (L : len rows = 1000000).
  { destruct F as [F _]; unfold len; rewrite F, !Nat2Z.inj_mul; unfold pts; rewrite !Z2Nat.id by (cbn [nth]; lia); reflexivity. }
  exists sources, rows; split; [exact Es|]; split; [exact E|]; split; [exact L|].
  intros J init step sched o Hf Ho.
  destruct (C121_parallel T NT J init step sources (mk 3 rows 3) rows 12 sched o) as (Eo & out & Eo' & Lo & _); auto; try (rewrite ?L; lia).
  - apply repr_mk; auto; rewrite ?L; lia.
  - intros ->; discriminate L.
  - split; [exact Eo|]; exists out; split; [exact Eo'|]; unfold len in *; rewrite Lo; exact L.
Qed.
Print Assumptions C121_main.
