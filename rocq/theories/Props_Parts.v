(** * C167: a Serie of vectors is treated like the Series of its components. *)
From Verif Require Import Base Num Serie Spec BaseFacts SerieFacts Functional FunctionalFacts F64 F64Arith F64Facts Mathf MathFacts Stats StatsFacts Utils UtilsFacts OrderFacts MinMaxFacts Dataframe Attributes
  Props_Functional Props_AddSub Props_MultDiv Props_MinMax Props_Zip Props_Components.
From Flocq Require Import IEEE754.BinarySingleNaN.
From Coq Require Import Reals Lra.
From Coq Require String.
Open Scope Z_scope.
Opaque f64_of_Z.

(** one size 1 for each component *)
Definition ones (k : Z) : list Z := repeat 1 (Z.to_nat k).

Section Parts.
  Context {T : Type} {NT : Num T}.
  Definition column_of (c : nat) (rows : list (list T)) : list T := map (fun r => nth c r n0) rows.
  Definition parts (k : Z) (rows : list (list T)) : list (Serie T) := map (fun c => mk 1 (col (column_of c rows)) 3) (seq 0 (Z.to_nat k)).

  Lemma columns_ones n : forall rows : list (list T), Forall (fun r => length r = n) rows -> columns (repeat 1 n) rows = map (fun c => col (column_of c rows)) (seq 0 n).
  Proof.
    induction n as [|n IH]; intros rows Hr; [reflexivity|]. cbn [repeat columns seq map]; f_equal.
    - unfold col, column_of; rewrite map_map; change (Z.to_nat 1) with 1%nat; rewrite Forall_forall in Hr; apply map_ext_in; intros r Hin; specialize (Hr r Hin).
      destruct r as [|x r]; [clear - Hr; discriminate Hr|reflexivity].
    - change (Z.to_nat 1) with 1%nat; rewrite IH.
      + rewrite <- seq_shift, map_map; apply map_ext; intros c; unfold col, column_of; rewrite !map_map; rewrite Forall_forall in Hr; apply map_ext_in; intros r Hin; specialize (Hr r Hin).
        destruct r as [|x r]; [clear - Hr; discriminate Hr|reflexivity].
      + rewrite Forall_map; eapply Forall_impl; [|exact Hr]; cbn beta; intros r Hl; rewrite skipn_length; lia.
  Qed.
  Lemma ones_facts k : 1 <= k -> ones k <> [] /\ Forall (fun x => 1 <= x) (ones k) /\ sumZ (ones k) = k.
  Proof.
    intros Hk; unfold ones; repeat split.
    - destruct (Z.to_nat k) eqn:E; [lia|]; intros F; clear - F; discriminate F.
    - apply Forall_forall; intros x Hx; apply repeat_spec in Hx; lia.
    - rewrite <- (Z2Nat.id k) at 2 by lia. induction (Z.to_nat k) as [|n IH]; [reflexivity|]. cbn [repeat]; unfold sumZ in *; cbn [fold_right]; rewrite IH; lia.
  Qed.
  Lemma unzip_ones (s : Serie T) k rows : repr s k rows -> 1 <= k -> unzip s (ones k) = Ok (parts k rows).
  Proof.
    intros Hs Hk; destruct (ones_facts k Hk) as (A & B & C); rewrite (C37_unzip T NT s k rows (ones k) Hs A B C); f_equal.
    unfold as_series, ones, parts; rewrite columns_ones.
    - assert (E : forall (l : list (list (list T))) n, length l = n -> map (fun p => mk (fst p) (snd p) 3) (combine (repeat 1 n) l) = map (fun t => mk 1 t 3) l).
      { clear; induction l as [|t l IH]; intros [|n] E; try (clear - E; discriminate E); [reflexivity|]; cbn [repeat combine map fst snd]; rewrite IH by (injection E; auto); reflexivity. }
      rewrite E by (rewrite map_length, seq_length; reflexivity). rewrite map_map; reflexivity.
    - pose proof (repr_rows _ _ _ Hs) as Hr; eapply Forall_impl; [|exact Hr]; cbn beta; unfold len; intros; lia.
  Qed.
  Lemma part_repr (s : Serie T) k rows c : repr s k rows -> 1 <= k -> repr (mk 1 (col (column_of c rows)) 3) 1 (col (column_of c rows)).
  Proof.
    intros Hs Hk; assert (B1 : k * len rows < 4294967296) by (unfold repr in Hs; tauto). assert (B2 : len rows < 4294967296) by (unfold repr in Hs; tauto).
    apply repr_mk; [apply rows_col|lia| |]; rewrite len_col; unfold column_of; rewrite len_map; lia.
  Qed.
  Lemma nth_parts k rows c p : nth_error (parts k rows) c = Some p -> (c < Z.to_nat k)%nat /\ p = mk 1 (col (column_of c rows)) 3.
  Proof.
    unfold parts; rewrite nth_error_map; destruct (nth_error (seq 0 (Z.to_nat k)) c) as [m|] eqn:E; [|intros F; clear - F; discriminate F].
    assert (H : (c < Z.to_nat k)%nat) by (pose proof (proj1 (nth_error_Some (seq 0 (Z.to_nat k)) c) ltac:(rewrite E; discriminate)) as Q; rewrite seq_length in Q; exact Q).
    rewrite (nth_error_nth' _ O) in E by (rewrite seq_length; exact H). rewrite seq_nth in E by exact H. injection E as <-; intros F; injection F as <-; auto.
  Qed.
  Lemma nth_repeat_in {A} (x d : A) n c : (c < n)%nat -> nth c (repeat x n) d = x.
  Proof. revert c; induction n as [|n IH]; intros [|c] H; try lia; [reflexivity|apply IH; lia]. Qed.
  Lemma length_parts k rows : length (parts k rows) = Z.to_nat k.
  Proof. unfold parts; rewrite map_length, seq_length; reflexivity. Qed.
  Lemma column_map2 (f : T -> T -> T) k ra : forall rb c, rows_of_size k ra -> rows_of_size k rb -> (c < Z.to_nat k)%nat -> column_of c (map2 (map2 f) ra rb) = map2 f (column_of c ra) (column_of c rb).
  Proof.
    induction ra as [|r ra IH]; intros [|r' rb] c Ha Hb Hc; try reflexivity; inversion Ha; inversion Hb; subst; unfold column_of in *; cbn [map2 map]; f_equal; [|apply IH; assumption].
    apply nth_error_nth, nth_error_map2; apply nth_error_nth'; unfold len in *; lia.
  Qed.
  Lemma column_map (f : T -> T) k rows c : rows_of_size k rows -> (c < Z.to_nat k)%nat -> column_of c (map (map f) rows) = map f (column_of c rows).
  Proof.
    intros Hr Hc; unfold column_of; rewrite !map_map; apply map_ext_in; intros r Hin; unfold rows_of_size in Hr; rewrite Forall_forall in Hr; specialize (Hr r Hin).
    rewrite (nth_indep _ n0 (f n0)) by (rewrite map_length; unfold len in Hr; lia). apply map_nth.
  Qed.
  Lemma rows_bounds (s : Serie T) k rows : repr s k rows -> k * len rows < 4294967296 /\ len rows < 4294967296 /\ k < 2147483648.
  Proof. unfold repr; tauto. Qed.
End Parts.

(** ** C167: the components *)
Theorem C167_components : forall {T} {NT : Num T} (s : Serie T) k rows, repr s k rows -> 1 <= k ->
  exists ps, unzip s (ones k) = Ok ps /\ length ps = Z.to_nat k /\ zipVector ps = Ok (mk k rows 3) /\
  forall c p, nth_error ps c = Some p ->
    repr p 1 (col (map (fun r => nth c r n0) rows)) /\
    run (map_vs (fun item _ => lift (rd item (Z.of_nat c))) s) = Ok p.
Proof.
  intros T NT s k rows Hs Hk; exists (parts k rows); pose proof (unzip_ones s k rows Hs Hk) as E; split; [exact E|]; split; [apply length_parts|]; split.
  - destruct (ones_facts k Hk) as (A & B & C); destruct (C37_zip_unzip T NT s k rows (ones k) Hs A B C) as (ps & E' & Z); rewrite E in E'; injection E' as <-; exact Z.
  - intros c p Hp; apply nth_parts in Hp; destruct Hp as [Hc ->]; split; [exact (part_repr s k rows c Hs Hk)|].
    unfold run; rewrite (proj2 (C09_map_number T NT unit s tt (column_of c rows) tt) _ k rows Hs); [reflexivity|].
    apply calls_index; [apply map_length|]; intros j r y Hj Hy; unfold column_of in Hy; rewrite nth_error_map, Hj in Hy; injection Hy as <-.
    unfold lift; f_equal; apply rd_nat, nth_error_nth'. pose proof (rows_nth_len _ _ _ _ (repr_rows _ _ _ Hs) Hj) as Lr; unfold len in Lr; lia.
Qed.
Print Assumptions C167_components.

(** what the decomposer Components gives for x, y, z of a stored Serie of vectors *)
Theorem C167_decomposer : forall {T} {NT : Num T} (d : Dataframe T) n rows c i, reachable d -> repr (df_get d n) 3 rows -> rows <> [] -> In (c, i) vector_layout ->
  exists ps p, unzip (df_get d n) [1; 1; 1] = Ok ps /\ nth_error ps i = Some p /\ components_serie d 1 (n +++ c) = Ok p.
Proof.
  intros T NT d n rows c i Hd Hs Hne Hin; destruct (C94_vector d n rows c i Hd Hs Hne Hin) as (xs & E & P).
  exists (parts 3 rows), (mk 1 (col (column_of i rows)) 3); split; [exact (unzip_ones _ 3 rows Hs ltac:(lia))|]; split.
  - unfold parts; change (Z.to_nat 3) with 3%nat; cbn [seq map].
    repeat (destruct Hin as [Hin|Hin]; [injection Hin as <- <-; reflexivity|]); destruct Hin.
  - rewrite E; do 3 f_equal. unfold column_of; clear - P; induction P as [|r x rows xs H P IH]; [reflexivity|]; cbn [map]; f_equal; [symmetry; apply nth_error_nth; exact H|exact IH].
Qed.
Print Assumptions C167_decomposer.

(** ** C167: arithmetic *)
Section Arithmetic.
  Context {T : Type} {NT : Num T}.
  Definition by_components2 (op : Serie T -> Serie T -> outcome (Serie T)) (a b : Serie T) (k : Z) : Prop :=
    exists r pa pb pr, op a b = Ok r /\ unzip a (ones k) = Ok pa /\ unzip b (ones k) = Ok pb /\ unzip r (ones k) = Ok pr /\
      length pa = Z.to_nat k /\ length pb = Z.to_nat k /\ length pr = Z.to_nat k /\
      forall c x y z, nth_error pa c = Some x -> nth_error pb c = Some y -> nth_error pr c = Some z -> op x y = Ok z.
  Definition by_components (op : Serie T -> outcome (Serie T)) (a : Serie T) (k : Z) : Prop :=
    exists r pa pr, op a = Ok r /\ unzip a (ones k) = Ok pa /\ unzip r (ones k) = Ok pr /\ length pa = Z.to_nat k /\ length pr = Z.to_nat k /\
      forall c x z, nth_error pa c = Some x -> nth_error pr c = Some z -> op x = Ok z.

  Lemma components2 (op : Serie T -> Serie T -> outcome (Serie T)) (f : T -> T -> T) a b k ra rb : repr a k ra -> repr b k rb -> len ra = len rb -> 1 <= k ->
    op a b = Ok (mk k (map2 (map2 f) ra rb) 3) ->
    (forall xs ys, repr (mk 1 (col xs) 3) 1 (col xs) -> repr (mk 1 (col ys) 3) 1 (col ys) -> len xs = len ys -> op (mk 1 (col xs) 3) (mk 1 (col ys) 3) = Ok (mk 1 (col (map2 f xs ys)) 3)) ->
    by_components2 op a b k.
  Proof.
    intros Ha Hb Hl Hk E Hp; exists (mk k (map2 (map2 f) ra rb) 3), (parts k ra), (parts k rb), (parts k (map2 (map2 f) ra rb)).
    pose proof (repr_rows _ _ _ Ha) as Ra; pose proof (repr_rows _ _ _ Hb) as Rb; destruct (rows_bounds a k ra Ha) as (B1 & B2 & B3).
    assert (Lr : len (map2 (map2 f) ra rb) = len ra) by (apply len_map2; exact Hl).
    assert (Hr : repr (mk k (map2 (map2 f) ra rb) 3) k (map2 (map2 f) ra rb)) by (apply repr_mk; [apply rows_map2; assumption|lia|rewrite Lr; lia|rewrite Lr; lia]).
    rewrite !length_parts; split; [exact E|]; split; [exact (unzip_ones a k ra Ha Hk)|]; split; [exact (unzip_ones b k rb Hb Hk)|]; split; [exact (unzip_ones _ k _ Hr Hk)|]; do 3 (split; [reflexivity|]).
    intros c x y z Hx Hy Hz; apply nth_parts in Hx, Hy, Hz; destruct Hx as [Hc ->]; destruct Hy as [_ ->]; destruct Hz as [_ ->].
    rewrite (column_map2 f k ra rb c Ra Rb Hc); apply Hp; [exact (part_repr a k ra c Ha Hk)|exact (part_repr b k rb c Hb Hk)|unfold column_of; rewrite !len_map; exact Hl].
  Qed.
  Lemma components1 (op : Serie T -> outcome (Serie T)) (f : T -> T) a k ra : repr a k ra -> ra <> [] -> 1 <= k ->
    (forall b q rb, repr b q rb -> rb <> [] -> 1 <= q -> op b = Ok (mk q (map (map f) rb) 3)) -> by_components op a k.
  Proof.
    intros Ha Hne Hk Hop; exists (mk k (map (map f) ra) 3), (parts k ra), (parts k (map (map f) ra)).
    pose proof (repr_rows _ _ _ Ha) as Ra; destruct (rows_bounds a k ra Ha) as (B1 & B2 & B3).
    assert (Hr : repr (mk k (map (map f) ra) 3) k (map (map f) ra)) by (apply repr_mk; [apply rows_map; assumption|lia|rewrite len_map; lia|rewrite len_map; lia]).
    rewrite !length_parts; split; [exact (Hop a k ra Ha Hne Hk)|]; split; [exact (unzip_ones a k ra Ha Hk)|]; split; [exact (unzip_ones _ k _ Hr Hk)|]; do 2 (split; [reflexivity|]).
    intros c x z Hx Hz; apply nth_parts in Hx, Hz; destruct Hx as [Hc ->]; destruct Hz as [_ ->].
    rewrite (column_map f k ra c Ra Hc), <- map_col; apply Hop; [exact (part_repr a k ra c Ha Hk)|destruct ra; [congruence|unfold column_of, col; cbn [map]; intros F; clear - F; discriminate F]|lia].
  Qed.
End Arithmetic.

Theorem C167_arithmetic : forall {T} {NT : Num T} (a b : Serie T) k ra rb, repr a k ra -> repr b k rb -> len ra = len rb -> ra <> [] -> 2 <= k ->
  by_components2 add a b k /\ by_components2 sub a b k /\ by_components2 mult_serie a b k /\
  forall d, by_components (fun s => scale s d) a k /\ by_components (fun s => mult s d) a k /\ by_components (fun s => div_value d s) a k.
Proof.
  intros T NT a b k ra rb Ha Hb Hl Hne Hk.
  assert (AS := fun s1 s2 => proj1 (C54_add_sub T NT s1 s2)); cbv beta in AS.
  split; [|split; [|split]].
  - eapply components2; [exact Ha|exact Hb|exact Hl|lia|apply AS; assumption|]; intros xs ys Hx Hy E.
    rewrite <- map2_col; apply AS; [exact Hx|exact Hy|rewrite !len_col; exact E].
  - eapply components2; [exact Ha|exact Hb|exact Hl|lia|apply AS; assumption|]; intros xs ys Hx Hy E.
    rewrite <- map2_col; apply AS; [exact Hx|exact Hy|rewrite !len_col; exact E].
  - eapply components2; [exact Ha|exact Hb|exact Hl|lia|exact (proj2 (proj2 (C59_by_serie T NT a b)) k ra rb Ha Hb Hk Hne Hl)|]; intros xs ys Hx Hy E.
    apply (proj1 (C59_by_serie T NT _ _)); [exact Hx|exact Hy|apply concat_col|exact E].
  - intros d; split; [|split]; (eapply components1; [exact Ha|exact Hne|lia|]).
    + intros s q rs Hs Hn Hq; apply scale_ok; assumption.
    + intros s q rs Hs Hn Hq; apply mult_ok; assumption.
    + intros s q rs Hs Hn Hq; apply (proj1 (C60_div T NT s q rs Hs) d Hn Hq).
Qed.
Print Assumptions C167_arithmetic.

(** ** C167: statistics *)
Theorem C167_mean : forall {T} {NT : Num T} (s : Serie T) k rows, repr s k rows -> 2 <= k ->
  exists m ps, mean s = Ok (Vector m) /\ unzip s (ones k) = Ok ps /\ length m = length ps /\
  forall c x p, nth_error m c = Some x -> nth_error ps c = Some p -> mean p = Ok (Number x).
Proof.
  intros T NT s k rows Hs Hk; rewrite (mean_vector s k rows Hs Hk); do 2 eexists; split; [reflexivity|]; split; [exact (unzip_ones s k rows Hs ltac:(lia))|].
  pose proof (repr_rows _ _ _ Hs) as Hr. assert (L0 : len (replicate k (n_of_Z 0)) = k) by (apply len_replicate; lia).
  pose proof (fun c Hc => fold_map2_column n_add n0 c k rows _ Hr L0 Hc) as F.
  assert (Lm : len (fold_left (map2 n_add) rows (replicate k (n_of_Z 0))) = k) by (apply (F O); lia).
  split; [rewrite map_length, length_parts; unfold len in Lm; lia|].
  intros c x p Hx Hp; apply nth_parts in Hp; destruct Hp as [Hc ->]; rewrite (mean_scalar _ _ (part_repr s k rows c Hs ltac:(lia))); do 2 f_equal.
  rewrite nth_error_map in Hx; rewrite (nth_error_nth' _ n0) in Hx by (unfold len in Lm; lia); injection Hx as <-.
  destruct (F c ltac:(lia)) as [-> _]; unfold column_of; rewrite len_map; f_equal; f_equal.
  unfold replicate; symmetry; apply nth_repeat_in; exact Hc.
Qed.
Print Assumptions C167_mean.

(** on finite doubles min(DBL_MAX, x) and max(lowest, x) are x *)
Lemma min_dblmax (L : Libm) (x : F64) : is_finite x = true -> @n_min F64 (f64_num L) (@n_dblmax F64 (f64_num L)) x = x.
Proof.
  intros Hx; destruct (dblmax_value L) as [Fd Vd]; pose proof (finite_le_dblmax x Hx); unfold n_min; destruct (n_ltb x n_dblmax) eqn:E; [reflexivity|].
  change (Bltb x (@n_dblmax F64 (f64_num L)) = false) in E; rewrite Bltb_correct in E by assumption. destruct (Raux.Rlt_bool_spec (B2R x) (B2R (@n_dblmax F64 (f64_num L)))) as [|Q]; [clear - E; discriminate E|].
  apply f64_inj_nz; auto; rewrite Vd in *; [apply dblmax_nz|lra].
Qed.
Lemma max_lowest (L : Libm) (x : F64) : is_finite x = true -> @n_max F64 (f64_num L) (@n_lowest F64 (f64_num L)) x = x.
Proof.
  intros Hx; destruct (lowest_value L) as [Fd Vd]; pose proof (finite_le_dblmax x Hx); unfold n_max; destruct (n_ltb n_lowest x) eqn:E; [reflexivity|].
  change (Bltb (@n_lowest F64 (f64_num L)) x = false) in E; rewrite Bltb_correct in E by assumption. destruct (Raux.Rlt_bool_spec (B2R (@n_lowest F64 (f64_num L))) (B2R x)) as [|Q]; [clear - E; discriminate E|].
  apply f64_inj_nz; auto; rewrite Vd in *; [rewrite opp_IZR; pose proof dblmax_nz; lra|lra].
Qed.

Theorem C167_minMax : forall (L : Libm) (s : Serie F64) k rows, repr s k rows -> rows <> [] -> 2 <= k -> Forall (Forall (fun x => is_finite x = true)) rows ->
  exists mn mx ps, @minMax F64 (f64_num L) s = Ok (mn, mx) /\ @unzip F64 (f64_num L) s (ones k) = Ok ps /\ length mn = length ps /\ length mx = length ps /\
  forall c lo hi p, nth_error mn c = Some lo -> nth_error mx c = Some hi -> nth_error ps c = Some p -> @minMax F64 (f64_num L) p = Ok ([lo], [hi]).
Proof.
  intros L s k [|r0 rows] Hs Hne Hk Hf; [congruence|]; rewrite (@minMax_vector F64 (f64_num L) s k r0 rows Hs Hk); do 3 eexists; split; [reflexivity|]; split; [exact (@unzip_ones F64 (f64_num L) s k (r0 :: rows) Hs ltac:(lia))|].
  pose proof (repr_rows _ _ _ Hs) as Hr; apply Forall_cons_iff in Hr; destruct Hr as [L0 Hr]; apply Forall_cons_iff in Hf; destruct Hf as [F0 _].
  pose proof (fun c Hc => @fold_map2_column F64 (@n_min F64 (f64_num L)) (@n0 F64 (f64_num L)) c k rows _ Hr L0 Hc) as Fn; pose proof (fun c Hc => @fold_map2_column F64 (@n_max F64 (f64_num L)) (@n0 F64 (f64_num L)) c k rows _ Hr L0 Hc) as Fx.
  assert (Ln : len (fold_left (map2 (@n_min F64 (f64_num L))) rows r0) = k) by (apply (Fn O); lia). assert (Lx : len (fold_left (map2 (@n_max F64 (f64_num L))) rows r0) = k) by (apply (Fx O); lia).
  rewrite length_parts; split; [unfold len in Ln; lia|]; split; [unfold len in Lx; lia|].
  intros c lo hi p Hlo Hhi Hp; apply nth_parts in Hp; destruct Hp as [Hc ->].
  rewrite (@minMax_scalar F64 (f64_num L) _ _ (@part_repr F64 (f64_num L) s k (r0 :: rows) c Hs ltac:(lia))) by (unfold column_of; cbn [map]; intros F; clear - F; discriminate F).
  rewrite (nth_error_nth' _ (@n0 F64 (f64_num L))) in Hlo by (unfold len in Ln; lia); rewrite (nth_error_nth' _ (@n0 F64 (f64_num L))) in Hhi by (unfold len in Lx; lia); injection Hlo as <-; injection Hhi as <-.
  assert (Fin : is_finite (nth c r0 (@n0 F64 (f64_num L))) = true). { rewrite Forall_forall in F0; apply F0, nth_In; unfold len in L0; lia. }
  f_equal; f_equal; (f_equal; unfold column_of; cbn [map fold_left]; symmetry; etransitivity; [first [exact (proj1 (Fn c ltac:(lia)))|exact (proj1 (Fx c ltac:(lia)))]|]; f_equal; symmetry; first [exact (min_dblmax L _ Fin)|exact (max_lowest L _ Fin)]).
Qed.
Print Assumptions C167_minMax.

(** the hypotheses are met, and the claims say something: two points of space *)
Section Example167.
  Local Existing Instance F64N.
  Let pts : Serie F64 := mk 3 [[#1; #2; #3]; [#4; #0; #5]] 3.
  Example C167_ex : repr pts 3 [[#1; #2; #3]; [#4; #0; #5]] /\
    Forall (Forall (fun x : F64 => is_finite x = true)) [[#1; #2; #3]; [#4; #0; #5]] /\
    unzip pts (ones 3) = Ok [mk 1 (col [#1; #4]) 3; mk 1 (col [#2; #0]) 3; mk 1 (col [#3; #5]) 3].
  Proof. split; [repr_ex|]; split; [repeat constructor; apply f64_of_Z_finite; lia|reflexivity]. Qed.
  (* the sums of the second component *)
  Example C167_ex_add : exists r pr z, add pts pts = Ok r /\ unzip r (ones 3) = Ok pr /\ nth_error pr 1 = Some z /\ add (mk 1 (col [#2; #0]) 3) (mk 1 (col [#2; #0]) 3) = Ok z.
  Proof. do 3 eexists; split; [reflexivity|]; split; [reflexivity|]; split; reflexivity. Qed.
  (* the mean of the first and of the third component *)
  Example C167_ex_mean : exists a b c, mean pts = Ok (Vector [a; b; c]) /\ mean (mk 1 (col [#1; #4]) 3) = Ok (Number a) /\ mean (mk 1 (col [#3; #5]) 3) = Ok (Number c).
  Proof. do 3 eexists; split; [reflexivity|]; split; reflexivity. Qed.
End Example167.
