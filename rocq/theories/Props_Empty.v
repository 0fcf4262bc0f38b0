(** * C131: the empty Serie that functions return for arguments they refuse. *)
From Verif Require Import Base Num Serie Spec BaseFacts SerieFacts FunctionalFacts MinMaxFacts Functional Utils Mathf Algebra Stats Geo Eigen Streams F64 Props_Functional.

(** a Serie without items, numbers or item size *)
Definition blank {T} (r : Serie T) : Prop := count r = 0 /\ asArray r = [] /\ itemSize r = 0 /\ dimension r = 3.
Definition gives_blank {T} (o : outcome (Serie T)) : Prop := exists r, o = Ok r /\ blank r.
Definition refuses {A} (o : outcome A) : Prop := exists e, o = Throw e.

Lemma default_blank {T} {NT : Num T} : gives_blank (Ok (@serie_default T NT)).
Proof. exists serie_default; split; [reflexivity|]; repeat split. Qed.
Lemma blank_is {T} {NT : Num T} (r : Serie T) : blank r -> 0 <= itemSize_ r < 4294967296 -> r = serie_default.
Proof.
  destruct r as [s c d k]; unfold blank, count, asArray, itemSize, dimension; cbn [s_ count_ itemSize_ dimension_].
  intros (-> & -> & E & ->) Hk; rewrite u32_small in E by lia; subst; reflexivity.
Qed.

(** ** Who returns it *)
Theorem C131_refused :
  forall (T : Type) (NT : Num T) (s : Serie T),
  (isValid s = false -> gives_blank (inv s) /\ gives_blank (norm2 s) /\ gives_blank (norm s) /\
     (forall sorter comp, gives_blank (sort_by sorter comp s)) /\ (forall f, gives_blank (fringes s f)) /\ (forall los, gives_blank (insar s los)) /\
     (forall t, gives_blank (normals s t) /\ gives_blank (normals t s) /\ gives_blank (areas s t) /\ gives_blank (areas t s))) /\
  (dimension s <> 3 \/ (itemSize s <> 6 /\ itemSize s <> 9) -> gives_blank (inv s)) /\
  (itemSize s <> 3 -> (forall los, gives_blank (insar s los)) /\ (forall t, gives_blank (normals s t) /\ gives_blank (normals t s))) /\
  (forall los, len los <> 3 -> gives_blank (insar s los)) /\
  (itemSize s <> 1 -> forall f, gives_blank (fringes s f)) /\
  (forall k row rows v, repr s k (row :: rows) -> len v <> k -> gives_blank (dot_array s v)).
Proof.
  intros T NT s; split; [|split; [|split; [|split; [|split]]]].
  - intros Hv; unfold norm, inv, norm2, sort_by, fringes, insar, normals, areas; rewrite Hv; cbn [negb orb].
    repeat split; intros; try apply default_blank; rewrite ?Bool.orb_true_r; apply default_blank.
  - intros H; unfold inv; destruct (isValid s); cbn [negb]; [|apply default_blank].
    destruct (Z.eqb_spec (dimension s) 3) as [E|E]; cbn [negb orb]; [|apply default_blank].
    destruct H as [H|[H6 H9]]; [contradiction|].
    destruct (Z.eqb_spec (itemSize s) 6); [contradiction|]; destruct (Z.eqb_spec (itemSize s) 9); [contradiction|]; apply default_blank.
  - intros H; split; [|intros t; split]; intros; unfold insar, normals; destruct (Z.eqb_spec (itemSize s) 3); try contradiction; cbn [negb]; rewrite ?Bool.orb_true_r; cbn [orb]; try apply default_blank.
    all: destruct (negb _ || negb _); apply default_blank.
  - intros los H; unfold insar; destruct (negb _ || negb _); [apply default_blank|]; destruct (Z.eqb_spec (len los) 3); [contradiction|apply default_blank].
  - intros H f; unfold fringes; destruct (Z.eqb_spec (itemSize s) 1); [contradiction|]; rewrite Bool.orb_true_r; apply default_blank.
  - intros k row rows v Hs Hv; unfold dot_array; rewrite (repr_nth_value s k (row :: rows) Hs 0%nat row eq_refl : value s 0 = Ok row); cbn [obind].
    assert (Lr : len row = k) by (unfold repr, rows_of_size in Hs; destruct Hs as (_ & _ & _ & R & _); inversion R; assumption).
    destruct (Z.eqb_spec (len row) (len v)); [lia|apply default_blank].
Qed.
Print Assumptions C131_refused.

(** ** What happens when it is passed on *)
Theorem C131_passed_on :
  forall (T : Type) (NT : Num T) (d : Serie T), d = serie_default ->
  gives_blank (inv d) /\ gives_blank (norm2 d) /\ gives_blank (norm d) /\ gives_blank (negate d) /\
  (forall v, gives_blank (scale d v) /\ gives_blank (mult d v) /\ gives_blank (div_value v d) /\ gives_blank (fringes d v)) /\
  (forall s, gives_blank (dot d s) /\ gives_blank (normals d s) /\ gives_blank (normals s d)) /\
  (forall v, gives_blank (dot_array d v) /\ gives_blank (insar d v)) /\
  gives_blank (add d d) /\ gives_blank (sub d d) /\ gives_blank (mult_serie d d) /\ gives_blank (weigthedSum [d] [n1]) /\
  (forall sorter comp, gives_blank (sort_by sorter comp d)) /\
  (forall b, gives_blank (merge2 d d b)) /\
  refuses (det d) /\ refuses (transpose d) /\ refuses (minMax d) /\ refuses (normalize d) /\
  refuses (eigenValues d) /\ refuses (eigenVectors d) /\ refuses (eigenSystem d) /\
  (forall v, refuses (add_value d v) /\ refuses (sub_value d v)) /\
  (forall s, refuses (div_serie d s) /\ refuses (div_serie s d)) /\
  (forall nb lo hi, refuses (bins d nb) /\ refuses (bins_between d nb lo hi)) /\
  (forall sorter q, refuses (quantile sorter d q) /\ refuses (outliers sorter d q) /\ refuses (isOutliers sorter d q) /\ refuses (notOutliers sorter d q)) /\
  refuses (covariance d d) /\ mean d = Ok (Vector []).
Proof.
  intros T NT d ->.
  assert (B : forall o, o = Ok (@serie_default T NT) -> gives_blank o) by (intros o ->; apply default_blank).
  assert (R : forall A (o : outcome A) e, o = Throw e -> refuses o) by (intros A o e ->; exists e; reflexivity).
  assert (Q : forall sorter q, quantile sorter (@serie_default T NT) q = Throw InvalidArgument) by reflexivity.
  repeat match goal with |- _ /\ _ => split | |- forall _, _ => intro end;
    try (apply B; reflexivity); try (eapply R; reflexivity); try reflexivity.
  - unfold normals; rewrite Bool.orb_true_r; apply default_blank.
  - destruct v; apply B; [reflexivity|]; unfold dot_array; rewrite (eq_refl : value (@serie_default T NT) 0 = Ok []); cbn [obind].
    rewrite len_cons; pose proof (len_nonneg v); destruct (Z.eqb_spec (len (@nil T)) (len v + 1)) as [E|E]; [change (len (@nil T)) with 0 in E; lia|reflexivity].
  - destruct b; apply B; reflexivity.
  - apply (R _ _ InvalidArgument); unfold div_serie; rewrite Bool.orb_true_r; reflexivity.
Qed.
Print Assumptions C131_passed_on.

(** callbacks are never called on it *)
Theorem C131_no_calls :
  forall (T : Type) (NT : Num T) (St : Type) (st : St) (d : Serie T), d = serie_default ->
  (forall cb, exists r, map_ss cb d st = (Ok r, st) /\ count r = 0) /\
  (forall cb, exists r, map_vs cb d st = (Ok r, st) /\ count r = 0) /\
  (forall cb, exists r, map_sv cb d st = (Ok r, st) /\ count r = 0) /\
  (forall cb, exists r, map_vv cb d st = (Ok r, st) /\ count r = 0) /\
  (forall cb, exists r, filter_s cb d st = (Ok r, st) /\ count r = 0) /\
  (forall cb, exists r, filter_v cb d st = (Ok r, st) /\ count r = 0) /\
  (forall cb, exists r, reject_s cb d st = (Ok r, st) /\ count r = 0) /\
  (forall cb, exists r, reject_v cb d st = (Ok r, st) /\ count r = 0) /\
  (forall cb, exists r q, partition_v cb d st = (Ok (r, q), st) /\ count r = 0 /\ count q = 0) /\
  (forall cb, partition_s cb d st = (Throw InvalidArgument, st)) /\
  (forall cb, find_s cb d st = (Throw InvalidArgument, st)) /\
  (forall cb, exists r, find_v cb d st = (Ok r, st) /\ fr_found r = false) /\
  (forall cb, exists r, findAll_s cb d st = (Ok r, st) /\ count r = 0) /\
  (forall cb, exists r, findAll_v cb d st = (Ok r, st) /\ count r = 0) /\
  (forall cb, forEach_s cb d st = (Throw InvalidArgument, st)) /\
  (forall cb, forEach_v cb d st = (Ok tt, st)) /\
  (forall cbs cbv, forEach_auto cbs cbv d st = (Ok tt, st)) /\
  (forall cb init, reduce_s cb d init st = (Ok init, st)) /\
  (forall cb, exists r, check_s d cb st = (Ok r, st) /\ count r = 0) /\
  (forall cb, exists r, check_v d cb st = (Ok r, st) /\ count r = 0).
Proof.
  intros T NT St st d ->.
  repeat match goal with |- _ /\ _ => split | |- forall _, _ => intro end; repeat eexists.
Qed.
Print Assumptions C131_no_calls.

Example C131_ex :
  let s := mk 4 [[#1; #0; #0; #1]] 2 in
  repr s 4 [[#1; #0; #0; #1]] /\ dimension s <> 3 /\ len [#1; #2] <> 4 /\ isValid (@serie_default F64 F64N) = false /\
  @inv F64 F64N s = Ok (@serie_default F64 F64N) /\ @dot_array F64 F64N s [#1; #2] = Ok (@serie_default F64 F64N).
Proof. intros s; split; [repr_ex|]; split; [discriminate|]; split; [discriminate|]; repeat split; reflexivity. Qed.
