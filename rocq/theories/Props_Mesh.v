(** * C98, C99: the decomposers Valence, Normals, Area. *)
From Verif Require Import Base Num Serie Functional Spec BaseFacts SerieFacts FunctionalFacts MathFacts MinMaxFacts AlgebraFacts StatsFacts F64 F64Facts RNum Geo Mathf Algebra Dataframe Attributes.
From Verif Require Import Props_Functional Props_Dataframe Props_Geo LinSpec Props_MultDiv Props_Algebra.
From Coq Require Import Reals Lra.
From Flocq Require Import Core.Core IEEE754.BinarySingleNaN.
From Coq Require String.
Import String.StringSyntax.
Local Open Scope string_scope.
Local Open Scope list_scope.
Open Scope Z_scope.

(** ** Specification *)
(** the corners of the triangles, one after the other *)
Definition corners (ts : list tri) : list nat := flat_map (fun t : tri => let '(i, j, k) := t in [i; j; k]) ts.
(** number of corners at the point [p] *)
Definition incident (ts : list tri) (p : nat) : nat := count_occ Nat.eq_dec (corners ts) p.
(** how a triangle is stored in the arithmetic at hand *)
Definition num_row {T} {NT : Num T} (t : tri) : list T := let '(i, j, k) := t in [n_of_Z (Z.of_nat i); n_of_Z (Z.of_nat j); n_of_Z (Z.of_nat k)].
Definition nat_num {T} {NT : Num T} (n : nat) : T := n_of_Z (Z.of_nat n).

(** what is used of the arithmetic: small whole numbers are exact *)
Record exact_counts {T} (NT : Num T) : Prop := {
  ec_succ : forall a, 0 <= a < 4294967296 -> n_add (n_of_Z a) (n_of_Z 1) = n_of_Z (a + 1);
  ec_index : forall i, 0 <= i < 4294967296 -> n_to_u64 (n_of_Z i) = Ok i }.
Lemma r_exact : exact_counts r_num.
Proof.
  split; intros a Ha.
  - cbn [n_add n_of_Z r_num]; rewrite plus_IZR; reflexivity.
  - unfold n_to_u64; cbn [n_to_Z n_of_Z r_num]; rewrite Ztrunc_IZR.
    replace ((0 <=? a) && (a <? two64))%bool with true; [reflexivity|]; symmetry; apply andb_true_intro; split; [apply Z.leb_le|apply Z.ltb_lt; unfold two64]; lia.
Qed.
Lemma f64_exact L : exact_counts (f64_num L).
Proof.
  split; intros a Ha.
  - cbn [n_add n_of_Z f64_num]. apply f64_add_int; lia.
  - unfold n_to_u64; cbn [n_to_Z n_of_Z f64_num].
    destruct (f64_of_Z_correct a ltac:(lia)) as (E & F & _); rewrite F.
    replace (Btrunc (f64_of_Z a)) with a by (apply eq_IZR; rewrite (Btrunc_correct 53 1024 F64_emax), E; symmetry; apply round_generic; [apply valid_rnd_ZR|apply generic_format_FIX; exists (Float radix2 a 0); [unfold F2R; cbn; ring|reflexivity]]).
    replace ((0 <=? a) && (a <? two64))%bool with true; [reflexivity|]; symmetry; apply andb_true_intro; split; [apply Z.leb_le|apply Z.ltb_lt; unfold two64]; lia.
Qed.


Section Valence.
  Context {T : Type} {NT : Num T} (EC : exact_counts NT).
  Notation num := (fun n => n_of_Z (Z.of_nat n)).

  Definition tally (n : nat) (cs : list nat) : list nat := map (count_occ Nat.eq_dec cs) (seq 0 n).
  Lemma tally_len n cs : length (tally n cs) = n.
  Proof. unfold tally; rewrite map_length, seq_length; reflexivity. Qed.
  Lemma tally_nth n cs p : (p < n)%nat -> nth_error (tally n cs) p = Some (count_occ Nat.eq_dec cs p).
  Proof. intros Hp; unfold tally; apply map_nth_error; rewrite (nth_error_nth' _ O) by (rewrite seq_length; exact Hp); rewrite seq_nth by exact Hp; reflexivity. Qed.
  Lemma count_occ_len (cs : list nat) p : (count_occ Nat.eq_dec cs p <= length cs)%nat.
  Proof. induction cs as [|c cs IH]; cbn [count_occ length]; [lia|]; destruct (Nat.eq_dec c p); lia. Qed.
  Lemma tally_bump n cs i : (i < n)%nat -> upd_nat (tally n cs) i (S (count_occ Nat.eq_dec cs i)) = tally n (cs ++ [i]).
  Proof.
    intros Hi; apply nth_error_ext; intros p; destruct (Nat.lt_ge_cases p n) as [Hp|Hp].
    - rewrite (tally_nth n (cs ++ [i]) p Hp), count_occ_app; cbn [count_occ]; destruct (Nat.eq_dec i p) as [->|Hne].
      + rewrite nth_error_upd_same by (rewrite tally_len; exact Hp); f_equal; lia.
      + rewrite nth_error_upd_other by exact Hne; rewrite tally_nth by exact Hp; f_equal; lia.
    - transitivity (@None nat); [|symmetry]; apply nth_error_None; rewrite ?upd_nat_length, tally_len; exact Hp.
  Qed.
  Lemma count_corner_ok t j i n cs : rd t j = Ok (n_of_Z (Z.of_nat i)) -> (i < n)%nat -> Z.of_nat n < 4294967296 -> Z.of_nat (length cs) < 4294967296 ->
    count_corner t (map num (tally n cs)) j = Ok (map num (tally n (cs ++ [i]))).
  Proof.
    intros Hr Hi Hn Hc; unfold count_corner; rewrite Hr; cbn [obind]; rewrite (ec_index NT EC) by lia; cbn [obind].
    rewrite (rd_nat _ i (n_of_Z (Z.of_nat (count_occ Nat.eq_dec cs i)))) by (apply (map_nth_error num); apply tally_nth; exact Hi); cbn [obind].
    pose proof (count_occ_len cs i).
    rewrite (ec_succ NT EC) by lia; rewrite wr_ok by (unfold len; rewrite map_length, tally_len; lia).
    rewrite Nat2Z.id; f_equal; rewrite <- tally_bump by exact Hi.
    replace (Z.of_nat (count_occ Nat.eq_dec cs i) + 1) with (Z.of_nat (S (count_occ Nat.eq_dec cs i))) by lia.
    rewrite (map_upd num); reflexivity.
  Qed.
  Lemma corners_cons t ts : corners (t :: ts) = (let '(i, j, k) := t in [i; j; k]) ++ corners ts.
  Proof. reflexivity. Qed.
  Lemma corners_len ts : length (corners ts) = (3 * length ts)%nat.
  Proof. induction ts as [|[[i j] k] ts IH]; [reflexivity|]; rewrite corners_cons, app_length, IH; cbn [length]; lia. Qed.
  Lemma valence_calls n ts : Z.of_nat n < 4294967296 -> Forall (tri_in n) ts -> forall cs i0, Z.of_nat (length cs + 3 * length ts) < 4294967296 ->
    calls valence_step (enum_from i0 (map num_row ts)) (map num (tally n cs)) (map (fun _ => tt) ts) (map num (tally n (cs ++ corners ts))).
  Proof.
    intros Hn; induction 1 as [|[[i j] k] ts (H1 & H2 & H3) _ IH]; intros cs i0 Hl; cbn [map enum_from].
    - rewrite app_nil_r; constructor.
    - cbn [length] in Hl; econstructor.
      + unfold valence_step; cbn [foldO].
        rewrite (count_corner_ok _ 0 i n cs) by (try reflexivity; lia || assumption); cbn [obind].
        rewrite (count_corner_ok _ 1 j n (cs ++ [i])) by (try reflexivity; try assumption; rewrite ?app_length; cbn [length]; lia); cbn [obind].
        rewrite (count_corner_ok _ 2 k n ((cs ++ [i]) ++ [j])) by (try reflexivity; try assumption; rewrite ?app_length; cbn [length]; lia); reflexivity.
      + rewrite corners_cons; replace (cs ++ [i; j; k] ++ corners ts) with ((((cs ++ [i]) ++ [j]) ++ [k]) ++ corners ts) by (rewrite <- !app_assoc; reflexivity).
        apply IH; rewrite !app_length; cbn [length]; lia.
  Qed.
  Lemma tally_nil n : map num (tally n []) = createArray (Z.of_nat n) (n_of_Z 0).
  Proof.
    unfold createArray, replicate; rewrite Nat2Z.id; unfold tally; rewrite map_map; cbn [count_occ].
    assert (E : forall m a, map (fun _ => n_of_Z 0) (seq a m) = repeat (n_of_Z 0 : T) m); [|exact (E n 0%nat)].
    induction m as [|m IH]; intros a; cbn [seq map repeat]; [reflexivity|]; rewrite IH; reflexivity.
  Qed.

  Lemma valence_ok (d : Dataframe T) name_ k kp ps ts : repr (df_get d "positions") kp ps -> 1 <= kp -> repr (df_get d "indices") 3 (map num_row ts) -> Forall (tri_in (length ps)) ts ->
    valence_serie name_ d k name_ = Ok (mk 1 (col (map num (tally (length ps) (corners ts)))) 3).
  Proof.
    intros Hp Hk Hi Ht; unfold valence_serie; rewrite String.eqb_refl; cbn [negb].
    rewrite (isValid_repr _ _ _ Hp), (isValid_repr _ _ _ Hi), (repr_count _ _ _ Hp); destruct (Z.ltb_spec 0 kp); [|lia]; cbn [Z.ltb Z.compare negb orb].
    assert (Hn : len ps < 4294967296) by apply Hp; assert (Hm : 3 * len (map num_row ts) < 4294967296) by apply Hi; unfold len in *; rewrite map_length in Hm.
    rewrite <- tally_nil.
    rewrite (forEach_v_calls _ _ 3 (map num_row ts) _ (map (fun _ => tt) ts) _ Hi ltac:(lia) (valence_calls (length ps) ts Hn Ht [] 0 ltac:(cbn [length]; lia))).
    cbn [obind app]; apply serie_of_1; unfold len; rewrite map_length, tally_len; exact Hn.
  Qed.
End Valence.

(** ** C98 *)
Theorem C98_valence :
  forall {T : Type} {NT : Num T} (d : Dataframe T) name_ k kp ps (ts : list tri), exact_counts NT ->
  repr (df_get d "positions") kp ps -> 1 <= kp -> repr (df_get d "indices") 3 (map num_row ts) -> Forall (tri_in (length ps)) ts ->
  exists ns : list nat, valence_serie name_ d k name_ = Ok (mk 1 (col (map nat_num ns)) 3) /\
    length ns = length ps /\
    (forall p, (p < length ps)%nat -> nth_error ns p = Some (incident ts p)) /\
    list_sum ns = (3 * length ts)%nat.
Proof.
  intros T NT d name_ k kp ps ts EC Hp Hk Hi Ht; exists (tally (length ps) (corners ts)); split; [apply (valence_ok EC d name_ k kp ps ts Hp Hk Hi Ht)|].
  split; [apply tally_len|]; split; [intros p Hlt; apply tally_nth; exact Hlt|].
  rewrite <- corners_len.
  assert (Hc : Forall (fun c => (c < length ps)%nat) (corners ts)).
  { clear -Ht; induction Ht as [|[[i j] k] ts (H1 & H2 & H3) _ IH]; [constructor|]; rewrite corners_cons; repeat constructor; assumption. }
  clear -Hc; revert Hc; generalize (length ps) as n; generalize (corners ts) as cs; intros cs n Hc.
  induction Hc as [|c cs Hcn _ IH].
  - unfold tally; cbn [count_occ length]; generalize (seq 0 n); induction l as [|x l IH]; cbn [map list_sum fold_right]; [reflexivity|exact IH].
  - assert (E : forall l, list_sum (map (count_occ Nat.eq_dec (c :: cs)) l) = (list_sum (map (count_occ Nat.eq_dec cs) l) + count_occ Nat.eq_dec l c)%nat).
    { induction l as [|x l IHl]; [reflexivity|]; cbn [map]; change (list_sum (?a :: ?l)) with (a + list_sum l)%nat; cbn [count_occ] in *.
      change (list_sum (count_occ Nat.eq_dec cs x :: map (count_occ Nat.eq_dec cs) l)) with (count_occ Nat.eq_dec cs x + list_sum (map (count_occ Nat.eq_dec cs) l))%nat.
      destruct (Nat.eq_dec c x), (Nat.eq_dec x c); subst; try congruence; rewrite IHl; lia. }
    unfold tally in *; rewrite E, IH; cbn [length].
    replace (count_occ Nat.eq_dec (seq 0 n) c) with 1%nat; [lia|].
    symmetry; apply NoDup_count_occ'; [apply seq_NoDup|apply in_seq; lia].
Qed.
Print Assumptions C98_valence.
(** binary64 and the real numbers are such arithmetics *)
Theorem C98_arithmetics : (forall L, exact_counts (f64_num L)) /\ exact_counts r_num.
Proof. split; [exact f64_exact|exact r_exact]. Qed.
Print Assumptions C98_arithmetics.
(** a triangle naming a point that does not exist: undefined *)
Theorem C98_missing_point :
  forall {T : Type} {NT : Num T} (d : Dataframe T) name_ k kp ps (ts : list tri), exact_counts NT ->
  repr (df_get d "positions") kp ps -> 1 <= kp -> repr (df_get d "indices") 3 (map num_row ts) ->
  Forall (tri_in (Z.to_nat 4294967296)) ts -> ~ Forall (tri_in (length ps)) ts ->
  valence_serie name_ d k name_ = UB.
Proof.
  intros T NT d name_ k kp ps ts EC Hp Hk Hi Hb Hbad; unfold valence_serie; rewrite String.eqb_refl; cbn [negb].
  rewrite (isValid_repr _ _ _ Hp), (isValid_repr _ _ _ Hi), (repr_count _ _ _ Hp); destruct (Z.ltb_spec 0 kp); [|lia]; cbn [Z.ltb Z.compare negb orb].
  assert (Hn : len ps < 4294967296) by apply Hp; assert (Hm : 3 * len (map num_row ts) < 4294967296) by apply Hi; unfold len in *; rewrite map_length in Hm.
  rewrite <- tally_nil.
  set (num := fun n => n_of_Z (Z.of_nat n) : T).
  assert (O : forall t j i cs, rd t j = Ok (num i) -> (length ps <= i)%nat -> Z.of_nat i < 4294967296 -> count_corner t (map num (tally (length ps) cs)) j = UB).
  { intros t j i cs Hr Hi1 Hi2; unfold count_corner; rewrite Hr; cbn [obind]; unfold num; rewrite (ec_index NT EC) by lia; cbn [obind].
    rewrite rd_out; [reflexivity|right; unfold len; rewrite map_length, tally_len; lia]. }
  assert (C : forall ts, Forall (tri_in (Z.to_nat 4294967296)) ts -> ~ Forall (tri_in (length ps)) ts -> forall cs i0, Z.of_nat (length cs + 3 * length ts) < 4294967296 ->
      exists st', calls_ub valence_step (enum_from i0 (map num_row ts)) (map num (tally (length ps) cs)) st').
  { clear Hi Hb Hbad Hm ts; induction 1 as [|[[i j] k'] ts (B1 & B2 & B3) _ IH]; intros Hbad cs i0 Hl; [exfalso; apply Hbad; constructor|].
    cbn [map enum_from length] in *.
    destruct (Nat.lt_ge_cases i (length ps)) as [H1|H1]; [|eexists; apply cu_here; unfold valence_step; cbn [foldO]; rewrite (O _ 0 i cs) by (try reflexivity; lia); reflexivity].
    destruct (Nat.lt_ge_cases j (length ps)) as [H2|H2].
    2: { eexists; apply cu_here; unfold valence_step; cbn [foldO].
         unfold num; rewrite (count_corner_ok EC _ 0 i (length ps) cs) by (try reflexivity; lia); cbn [obind]; fold num.
         rewrite (O _ 1 j) by (try reflexivity; lia); reflexivity. }
    destruct (Nat.lt_ge_cases k' (length ps)) as [H3|H3].
    2: { eexists; apply cu_here; unfold valence_step; cbn [foldO].
         unfold num; rewrite (count_corner_ok EC _ 0 i (length ps) cs) by (try reflexivity; lia); cbn [obind].
         rewrite (count_corner_ok EC _ 1 j (length ps) (cs ++ [i])) by (try reflexivity; rewrite ?app_length; cbn [length]; lia); cbn [obind]; fold num.
         rewrite (O _ 2 k') by (try reflexivity; lia); reflexivity. }
    destruct (IH ltac:(intros F; apply Hbad; constructor; [repeat split; assumption|exact F]) (((cs ++ [i]) ++ [j]) ++ [k']) (i0 + 1)) as (st' & U); [rewrite !app_length; cbn [length]; lia|].
    exists st'; eapply cu_later; [|exact U]; unfold valence_step; cbn [foldO]; unfold num.
    rewrite (count_corner_ok EC _ 0 i (length ps) cs) by (try reflexivity; lia); cbn [obind].
    rewrite (count_corner_ok EC _ 1 j (length ps) (cs ++ [i])) by (try reflexivity; rewrite ?app_length; cbn [length]; lia); cbn [obind].
    rewrite (count_corner_ok EC _ 2 k' (length ps) ((cs ++ [i]) ++ [j])) by (try reflexivity; rewrite ?app_length; cbn [length]; lia); reflexivity. }
  destruct (C ts Hb Hbad [] 0 ltac:(cbn [length]; lia)) as (st' & U).
  unfold forEach_v; rewrite (repr_itemSize _ _ _ Hi), (repr_count _ _ _ Hi); cbn [Z.eqb Pos.eqb].
  unfold mbind at 1; rewrite (each_reads _ _ (map num_row ts) _ (reads_array _ 3 _ Hi)).
  apply calls_ub_mapM in U; unfold enum; fold num; rewrite U; reflexivity.
Qed.
Print Assumptions C98_missing_point.
(** other names, or no mesh *)
Theorem C98_otherwise :
  forall {T : Type} {NT : Num T} (d : Dataframe T) name_ k name,
  name <> name_ \/ isValid (df_get d "positions") = false \/ isValid (df_get d "indices") = false ->
  exists s, valence_serie name_ d k name = Ok s /\ isValid s = false.
Proof.
  intros T NT d name_ k name H; exists serie_default; split; [|reflexivity]; unfold valence_serie; destruct (String.eqb_spec name name_) as [->|]; [|reflexivity].
  destruct H as [H|[H|H]]; [congruence|rewrite H; reflexivity|rewrite H, Bool.orb_true_r; reflexivity].
Qed.
Print Assumptions C98_otherwise.
Example C98_example :
  let ps := [[0; 0; 0]; [1; 0; 0]; [0; 1; 0]; [1; 1; 0]]%R in let ts := [(0, 1, 2); (1, 3, 2)]%nat in
  let d := drun (H := r_num) [DAdd 0 "positions" (mk 3 ps 3); DAdd 1 "indices" (mk 3 (map (num_row (NT := r_num)) ts) 3)] (df_new 0) in
  repr (df_get (H := r_num) d "positions") 3 ps /\ repr (df_get (H := r_num) d "indices") 3 (map (num_row (NT := r_num)) ts) /\ Forall (tri_in (length ps)) ts /\
  map (incident ts) [0; 1; 2; 3]%nat = [1; 2; 2; 1]%nat.
Proof.
  cbv zeta; match goal with |- context[df_get ?d "positions"] => set (dd := d) end; cbn [map num_row].
  change (df_get (H := r_num) dd "positions") with (mk 3 [[0; 0; 0]; [1; 0; 0]; [0; 1; 0]; [1; 1; 0]]%R 3).
  change (df_get (H := r_num) dd "indices") with (mk 3 (map (num_row (NT := r_num)) [(0, 1, 2); (1, 3, 2)]%nat) 3); cbn [map num_row].
  split; [repr_ex|split; [repr_ex|split; [repeat constructor; cbn; lia|reflexivity]]].
Qed.

(** ** C99 *)
(** whatever the Dataframe holds, Normals passes positions and indices on, for its own name only *)
Theorem C99_normals :
  forall {T St : Type} {NT : Num T} (d : Dataframe T) name_ k name (st : St),
  d_serie (Normals name_) d k name st = (if String.eqb name name_ then normals (df_get d "positions") (df_get d "indices") else Ok serie_default, st).
Proof. intros T St NT d name_ k name st; unfold Normals, normals_serie; cbn [d_serie]; unfold lift; destruct (String.eqb name name_); reflexivity. Qed.
Print Assumptions C99_normals.
(** Area of one triangle, in real arithmetic *)
Theorem C99_area_partial :
  forall (d : Dataframe R) name_ k ps (t : tri),
  repr (df_get (H := r_num) d "positions") 3 ps -> repr (df_get (H := r_num) d "indices") 3 [tri_row t] -> tri_in (length ps) t ->
  @area_serie R r_num name_ d k name_ = Ok (mk 1 (col [area (corner1 ps t) (corner2 ps t) (corner3 ps t)]) 3).
Proof.
  intros d name_ k ps t Hp Hi Ht.
  destruct (C84_normals _ _ ps [t] Hp Hi ltac:(constructor; [exact Ht|constructor])) as (ns & N & F).
  inversion F as [|t0 n ts0 ns0 Hn F0 E1 E2]; subst; inversion F0; subst; cbv zeta in Hn; destruct Hn as (L & _ & _ & _ & A & _).
  unfold area_serie, normals_serie; rewrite !String.eqb_refl; cbn [negb]; rewrite N; cbn [obind].
  assert (Hr : repr (mk 3 [n] 3) 3 [n]) by (apply repr_mk; [constructor; [exact L|constructor]|lia| |]; cbv [len length]; lia).
  rewrite (isValid_repr _ _ _ Hr); cbn [Z.ltb Z.compare]; rewrite (proj2 (C76_single_partial (mk 3 [n] 3) 3 n Hr ltac:(lia))); cbn [obind].
  assert (H1 : repr (mk 1 (col [sqrt (inner n n)]) 3) 1 (col [sqrt (inner n n)])) by (apply repr_col_mk; cbv [len length]; lia).
  pose proof (proj1 (C60_div R r_num _ 1 _ H1) (@n_of_Z R r_num 2)) as D; rewrite D; [clear D|discriminate|lia]; cbn [map col n_div n_of_Z r_num]; do 4 f_equal; f_equal.
  rewrite A; set (a := area _ _ _); assert (P : (0 <= a)%R) by (unfold a, area; pose proof (sqrt_pos (heron (corner1 ps t) (corner2 ps t) (corner3 ps t))); lra).
  replace (4 * (a * a))%R with (Rsqr (2 * a)) by (unfold Rsqr; ring); rewrite sqrt_Rsqr by lra; field.
Qed.
Print Assumptions C99_area_partial.
(** two triangles or more: undefined, in every arithmetic *)
Theorem C99_area_undefined :
  forall {T : Type} {NT : Num T} (d : Dataframe T) name_ k ps ts pqrs,
  repr (df_get d "positions") 3 ps -> repr (df_get d "indices") 3 ts -> Forall2 (has_corners (df_get d "positions")) ts pqrs ->
  2 <= len ts -> area_serie name_ d k name_ = UB.
Proof.
  intros T NT d name_ k ps ts pqrs Hp Hi Hc Hl; pose proof (proj2 (C85_never_returns _ _ ps ts pqrs Hp Hi Hc) Hl) as A.
  unfold area_serie; rewrite String.eqb_refl; cbn [negb]; unfold normals_serie; rewrite String.eqb_refl; cbn [negb].
  unfold areas in A; rewrite (isValid_repr _ _ _ Hp), (isValid_repr _ _ _ Hi) in A; cbn [Z.ltb Z.compare negb orb] in A.
  rewrite (normals_ok _ _ ps ts pqrs Hp Hi Hc) in *; cbn [obind] in *.
  assert (Ln : len (map normal_at pqrs) = len ts) by (unfold len; rewrite map_length, (Forall2_len _ _ _ Hc); reflexivity).
  assert (Hn : repr (mk 3 (map normal_at pqrs) 3) 3 (map normal_at pqrs)).
  { apply repr_mk; [|lia|rewrite Ln; apply Hi|rewrite Ln; apply Hi].
    clear -Hc; induction Hc as [|t pqr ts pqrs Ht _ IH]; cbn [map]; constructor; [apply (normal_len _ t pqr Ht)|exact IH]. }
  destruct (map normal_at pqrs) as [|r0 [|r1 rows]]; [change (len (@nil (list T))) with 0 in Ln; lia|change (len [r0]) with 1 in Ln; lia|].
  rewrite (isValid_repr _ _ _ Hn); cbn [Z.ltb Z.compare]; unfold norm; rewrite (norm2_ub _ 3 r0 r1 rows Hn) by lia; reflexivity.
Qed.
Print Assumptions C99_area_undefined.
(** no triangle: one number instead of none *)
Theorem C99_area_empty_refuted :
  forall (d : Dataframe R) name_ k ps, repr (df_get (H := r_num) d "positions") 3 ps -> repr (df_get (H := r_num) d "indices") 3 [] ->
  @area_serie R r_num name_ d k name_ = Ok (mk 1 (col [0%R]) 3).
Proof.
  intros d name_ k ps Hp Hi; unfold area_serie, normals_serie; rewrite !String.eqb_refl; cbn [negb].
  rewrite (@normals_ok R r_num _ _ ps [] [] Hp Hi (Forall2_nil _)); cbn [map obind].
  assert (V : isValid (@mk R 3 [] 3) = true) by reflexivity; rewrite V.
  assert (N : @norm R r_num (mk 3 [] 3) = Ok (mk 1 (col [sqrt 0]) 3)) by reflexivity; rewrite N; cbn [obind].
  assert (H1 : repr (mk 1 (col [sqrt 0]) 3) 1 (col [sqrt 0])) by (apply repr_col_mk; cbv [len length]; lia).
  pose proof (proj1 (C60_div R r_num _ 1 _ H1) (@n_of_Z R r_num 2)) as D; rewrite D; [clear D|discriminate|lia]; cbn [map col n_div n_of_Z r_num]; do 4 f_equal; f_equal; rewrite sqrt_0; lra.
Qed.
Print Assumptions C99_area_empty_refuted.
(** other names, or no mesh *)
Theorem C99_otherwise :
  forall {T : Type} {NT : Num T} (d : Dataframe T) name_ k name,
  name <> name_ \/ isValid (df_get d "positions") = false \/ isValid (df_get d "indices") = false ->
  (exists s, normals_serie name_ d k name = Ok s /\ isValid s = false) /\ (exists s, area_serie name_ d k name = Ok s /\ isValid s = false).
Proof.
  intros T NT d name_ k name H; unfold area_serie, normals_serie; rewrite String.eqb_refl; destruct (String.eqb_spec name name_) as [->|]; cbn [negb]; [|split; exists serie_default; split; reflexivity].
  assert (E : normals (df_get d "positions") (df_get d "indices") = Ok serie_default) by (unfold normals; destruct H as [H|[H|H]]; [congruence|rewrite H; reflexivity|rewrite H, Bool.orb_true_r; reflexivity]).
  rewrite E; split; exists serie_default; split; reflexivity.
Qed.
Print Assumptions C99_otherwise.
Theorem C99_area_refuted :
  exists (d : Dataframe R) ps (ts : list tri), repr (df_get (H := r_num) d "positions") 3 ps /\ repr (df_get (H := r_num) d "indices") 3 (map tri_row ts) /\ Forall (tri_in (length ps)) ts /\ length ts = 2%nat /\
    forall k, @area_serie R r_num "area" d k "area" = UB.
Proof.
  set (ps := [[0; 0; 0]; [1; 0; 0]; [0; 1; 0]]%R); set (ts := [(0, 1, 2); (0, 2, 1)]%nat : list tri).
  set (d := drun (H := r_num) [DAdd 0 "positions" (mk 3 ps 3); DAdd 1 "indices" (mk 3 (map tri_row ts) 3)] (df_new 0)).
  assert (Hp : repr (df_get (H := r_num) d "positions") 3 ps) by (change (df_get (H := r_num) d "positions") with (mk 3 ps 3); unfold ps; repr_ex).
  assert (Hi : repr (df_get (H := r_num) d "indices") 3 (map tri_row ts)) by (change (df_get (H := r_num) d "indices") with (mk 3 (map tri_row ts) 3); unfold ts; cbn [map tri_row]; repr_ex).
  assert (Ht : Forall (tri_in (length ps)) ts) by (repeat constructor; cbn; lia).
  exists d, ps, ts; split; [exact Hp|split; [exact Hi|split; [exact Ht|split; [reflexivity|]]]]; intros k.
  apply (C99_area_undefined (NT := r_num) d "area" k ps (map tri_row ts) (map (fun t => (corner1 ps t, corner2 ps t, corner3 ps t)) ts) Hp Hi); [|reflexivity || (cbv; discriminate)].
  clear Hi; clearbody d; induction Ht as [|t ts' H _ IH]; cbn [map]; [apply Forall2_nil|apply Forall2_cons; [apply corners_R; assumption|exact IH]].
Qed.
Print Assumptions C99_area_refuted.
