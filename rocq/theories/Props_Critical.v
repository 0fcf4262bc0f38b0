(** * C123: examples/critical-stress. *)
From Coq Require Import Reals Lra Psatz Sorted.
From Flocq Require Import Core IEEE754.BinarySingleNaN.
From Verif Require Import Base Num Serie Spec BaseFacts SerieFacts Functional FunctionalFacts Stats StatsFacts Eigen OrderFacts MinMaxFacts AlgebraFacts Examples.
From Verif Require Import F64 RNum LinSpec Props_Functional Props_MinMax Props_Eigen.
Open Scope Z_scope.
Opaque f64_of_Z.

Lemma select_indices {A B} (l : list A) (l' : list B) bs : forall i, (length bs <= length l)%nat -> (length bs <= length l')%nat ->
  select (map snd (enum_from i l)) bs = select (map snd (enum_from i l')) bs.
Proof.
  revert l l'; induction bs as [|b bs IH]; intros [|x l] [|y l'] i H H'; cbn [length] in *; try lia; try reflexivity.
  cbn [enum_from map select snd]; rewrite (IH l l') by lia; reflexivity.
Qed.
Lemma select_length {A B} (l : list A) (l' : list B) : forall bs, (length bs <= length l)%nat -> (length bs <= length l')%nat -> length (select l bs) = length (select l' bs).
Proof.
  revert l'; induction l as [|x l IH]; intros [|y l'] [|b bs] H H'; cbn [length select] in *; try lia; try reflexivity.
  destruct b; cbn [length]; rewrite (IH l') by lia; reflexivity.
Qed.

Section Pipeline.
  Context {T : Type} {NT : Num T} (n_exp : T -> T).

  (** ** Specification *)
  (** the items with a negative largest principal value *)
  Definition compressed (v : list T) : bool := n_ltb (nth 0 v n0) (n_of_Z 0).
  (** (sigma1 - sigma3) / (2 c cos phi / (1 - sin phi)) * exp(z / 1000) *)
  Definition index (cohesion angle : T) (v p : list T) : T :=
    n_mul (n_div (n_sub (nth 0 v n0) (nth 2 v n0))
                 (n_div (n_mul (n_mul (n_of_Z 2) cohesion) (n_cos angle)) (n_sub (n_of_Z 1) (n_sin angle))))
          (n_exp (n_div (n_opp (n_opp (nth 2 p n0))) (n_of_Z 1000))).
  Definition indices (cohesion angle : T) (vals prows : list (list T)) : list T :=
    map (fun vp => index cohesion angle (fst vp) (snd vp)) (filter (fun vp => compressed (fst vp)) (combine vals prows)).

  Lemma negative_items_ok s vals : repr s 3 vals -> negative_items s = Ok (select (map snd (enum vals)) (map compressed vals)).
  Proof.
    intros Hs; unfold negative_items; rewrite (repr_count _ _ _ Hs), iota_len.
    pose proof (repr_rows _ _ _ Hs) as Rr; pose proof (reads_array s 3 vals Hs) as Hg.
    assert (G : forall l a acc, (forall j x, nth_error l j = Some x -> get_array s (Z.of_nat (a + j)) = Ok x) -> rows_of_size 3 l ->
      foldO (fun indices i => let* v := get_array s i in let* v0 := rd v 0 in Ok (if n_ltb v0 (n_of_Z 0) then indices ++ [i] else indices)) (seqZ a (length l)) acc
      = Ok (acc ++ select (map snd (enum_from (Z.of_nat a) l)) (map compressed l))).
    { induction l as [|v l IH]; intros a acc Hl Hr; [cbn; rewrite app_nil_r; reflexivity|].
      apply Forall_cons_iff in Hr; destruct Hr as [Hv Hr].
      cbn [length]; rewrite seqZ_S; cbn [foldO]; pose proof (Hl O v eq_refl) as E; rewrite Nat.add_0_r in E; rewrite E; cbn [obind].
      destruct (len3 v Hv) as (v0 & v1 & v2 & ->); change (rd [v0; v1; v2] 0) with (Ok v0); cbn [obind].
      rewrite IH; [|intros j y Hj; replace (S a + j)%nat with (a + S j)%nat by lia; apply Hl; exact Hj|exact Hr].
      cbn [enum_from map select snd]; replace (Z.of_nat (S a)) with (Z.of_nat a + 1) by lia.
      change (compressed [v0; v1; v2]) with (n_ltb v0 (n_of_Z 0)).
      destruct (n_ltb v0 (n_of_Z 0)); [rewrite <- app_assoc|]; reflexivity. }
    apply (G vals O [] Hg Rr).
  Qed.

  Lemma pick_items_ok s k rows bs : repr s k rows -> pick_items (select (map snd (enum rows)) bs) s = Ok (mk k (select rows bs) 3).
  Proof.
    intros Hs; pose proof Hs as (Hk & Hc & _ & Hr & Hb & Hn & Hm).
    assert (El : len (select (map snd (enum rows)) bs) = len (select rows bs)).
    { rewrite select_map, (select_enum rows), !len_map; reflexivity. }
    pose proof (select_len_le rows bs) as Hle; pose proof (len_nonneg (select rows bs)) as Hp.
    unfold pick_items; rewrite (repr_itemSize s k rows Hs), El.
    rewrite (foldO_ext _ (fun r i => let* v := (let* idx := rd (select (map snd (enum rows)) bs) i in get_array s idx) in set_array r i v)).
    - apply fill_serie_n; auto; try lia; try nia; [apply select_rows; exact Hr|].
      apply select_read; eapply reads_array; exact Hs.
    - intros r i _; destruct (rd _ i); reflexivity.
  Qed.

  Lemma criticality_ok cohesion angle s p vals prows : repr s 3 vals -> repr p 3 prows -> length vals = length prows ->
    criticality n_exp cohesion angle s p = Ok (mk 1 (col (map (fun vp => index cohesion angle (fst vp) (snd vp)) (combine vals prows))) 3).
  Proof.
    intros Hs Hp Hl; set (f := fun vp => index cohesion angle (fst vp) (snd vp)); unfold criticality; rewrite (repr_count _ _ _ Hs).
    assert (El : len vals = len (map f (combine vals prows))) by (unfold len; rewrite map_length, combine_length; lia).
    pose proof (reads_array s 3 vals Hs) as Rs; pose proof (reads_array p 3 prows Hp) as Rp.
    pose proof (repr_rows _ _ _ Hs) as Hr; pose proof (repr_rows _ _ _ Hp) as Hr'; unfold rows_of_size in Hr, Hr'; rewrite Forall_forall in Hr, Hr'.
    pose proof (repr_len_bound _ _ _ Hs) as Hb.
    rewrite El.
    rewrite (foldO_ext _ (fun r i => let* x := (let* v := get_array s i in let* q := get_array p i in let* a := rd v 0 in let* b := rd v 2 in let* z := rd q 2 in
       Ok (n_mul (n_div (n_sub a b) (n_div (n_mul (n_mul (n_of_Z 2) cohesion) (n_cos angle)) (n_sub (n_of_Z 1) (n_sin angle)))) (n_exp (n_div (n_opp (n_opp z)) (n_of_Z 1000))))) in set_double r i x)).
    - apply fill_serie_n1; [lia|]; intros j x Hj.
      rewrite nth_error_map in Hj; destruct (nth_error (combine vals prows) j) as [[v q]|] eqn:E; [|discriminate]; injection Hj as <-.
      assert (E1 : nth_error vals j = Some v /\ nth_error prows j = Some q).
      { clear -E; revert prows j E; induction vals as [|a l IH]; intros [|b m] [|j] E; cbn in *; try discriminate; [injection E as <- <-; auto|apply IH; exact E]. }
      destruct E1 as [Ev Eq]; rewrite (Rs j v Ev), (Rp j q Eq); cbn [obind].
      destruct (len3 v (Hr v (nth_error_In _ _ Ev))) as (a & b & c & ->); destruct (len3 q (Hr' q (nth_error_In _ _ Eq))) as (d & e & g & ->); reflexivity.
    - intros r i _; destruct (get_array s i) as [v| |]; try reflexivity; destruct (get_array p i) as [q| |]; try reflexivity; cbn [obind].
      destruct (rd v 0); try reflexivity; destruct (rd v 2); try reflexivity; destruct (rd q 2); reflexivity.
  Qed.

  Lemma combine_select {A B} (f : A -> bool) : forall (l : list A) (m : list B), (length l <= length m)%nat ->
    combine (select l (map f l)) (select m (map f l)) = filter (fun ab => f (fst ab)) (combine l m).
  Proof.
    induction l as [|a l IH]; intros [|b m] H; cbn [length] in H; try lia; try reflexivity.
    cbn [map select combine filter fst]; rewrite <- IH by lia; destruct (f a); reflexivity.
  Qed.

  (** The program computes the index of every compressed item, in order, and their mean. *)
  Theorem C123_pipeline_partial :
    forall cohesion angle stress positions rows prows,
    repr stress 6 rows -> dimension stress = 3 -> 9 * len rows < 2 ^ 32 -> repr positions 3 prows -> len rows <= len prows ->
    exists vals vecs, eigenSystem stress = Ok (mk 3 vals 3, vecs) /\ length vals = length rows /\ rows_of_size 3 vals /\
    let xs := indices cohesion angle vals prows in
    critical_main n_exp cohesion angle stress positions = Ok (mk 1 (col xs) 3, Number (n_div (fold_left n_add xs (n_of_Z 0)) (n_of_Z (len xs)))).
  Proof.
    intros cohesion angle s p rows prows Hs Hd Hm Hp Hl.
    pose proof (eigenSystem_ok 3 s rows (or_intror eq_refl) Hs Hd Hm) as E; change (Z.of_nat 3) with 3 in E.
    assert (Rv : rows_of_size 3 (map (values_of 3) rows)).
    { pose proof (repr_rows _ _ _ Hs) as Rr; unfold rows_of_size in Rr; rewrite Forall_forall in Rr.
      apply Forall_forall; intros v Hv; apply in_map_iff in Hv; destruct Hv as (r & <- & Hr).
      destruct (item_ok 3 r (or_intror eq_refl) (Rr r Hr)) as (_ & L & _); exact L. }
    set (vals := map (values_of 3) rows) in *.
    exists vals, (mk (Z.of_nat (3 * 3)) (map (vectors_of 3) rows) 3); split; [exact E|]; split; [apply map_length|]; split; [exact Rv|]; intros xs.
    assert (Lv : len vals = len rows) by apply len_map.
    assert (Hv : repr (mk 3 vals 3) 3 vals) by (apply repr_mk; auto; rewrite ?Lv; lia).
    unfold critical_main; rewrite E; cbn [obind fst].
    rewrite (negative_items_ok _ _ Hv); cbn [obind].
    set (bs := map compressed vals).
    assert (Lb : (length bs <= length vals)%nat) by (unfold bs; rewrite map_length; lia).
    assert (Lb' : (length bs <= length prows)%nat) by (unfold bs; rewrite map_length; unfold len in *; lia).
    unfold enum at 1; rewrite (select_indices vals prows bs 0 Lb Lb'); fold (enum prows).
    rewrite (pick_items_ok p 3 prows bs Hp); cbn [obind].
    rewrite (pick_items_ok _ 3 vals bs Hv); cbn [obind].
    pose proof (select_len_le vals bs) as B1; pose proof (select_len_le prows bs) as B2.
    pose proof (len_nonneg (select vals bs)); pose proof (len_nonneg (select prows bs)).
    assert (Hm' : 3 * len prows < 4294967296) by apply Hp; assert (Hp' : len prows < 4294967296) by apply Hp.
    rewrite (criticality_ok cohesion angle _ _ (select vals bs) (select prows bs));
      [|apply repr_mk; [apply select_rows; exact Rv|lia|lia|lia]|apply repr_mk; [apply select_rows; exact (repr_rows _ _ _ Hp)|lia|lia|lia]|apply select_length; assumption].
    unfold bs; rewrite combine_select by (unfold len in *; lia).
    change (map _ (filter _ _)) with xs; cbn [obind].
    rewrite (mean_scalar (mk 1 (col xs) 3) xs); [reflexivity|].
    assert (Lx : len xs <= len rows).
    { rewrite <- Lv; unfold len, xs, indices; rewrite map_length.
      assert (F : forall (q : list (list T * list T)) f, (length (filter f q) <= length q)%nat)
        by (induction q as [|x q IH]; intros f; cbn [filter length]; [lia|destruct (f x); cbn [length]; specialize (IH f); lia]).
      specialize (F (combine vals prows) (fun vp => compressed (fst vp))); rewrite combine_length in F; lia. }
    apply repr_mk; rewrite ?len_col; try lia; apply rows_col.
  Qed.
End Pipeline.
Print Assumptions C123_pipeline_partial.

(** ** In binary64, with the cohesion 0 that the program sets *)
Definition zero_or_nan (x : F64) : Prop := match x with B754_zero _ | B754_nan => True | _ => False end.
Definition not_finite (x : F64) : Prop := is_finite x = false.
Lemma zn_mul x y : zero_or_nan x -> zero_or_nan (f64_mul x y).
Proof. destruct x as [s| | |s m e]; intros H; destruct H; destruct y; exact I. Qed.
Lemma zn_mul_r x y : is_finite x = true -> zero_or_nan y -> zero_or_nan (f64_mul x y).
Proof. destruct x as [s|s| |s m e He], y as [t|t| |t n d Hd]; intros F H; try discriminate F; destruct H; exact I. Qed.
Lemma zn_div x y : zero_or_nan x -> zero_or_nan (f64_div x y).
Proof. destruct x as [s| | |s m e]; intros H; destruct H; destruct y; exact I. Qed.
Lemma by_zn x y : zero_or_nan y -> not_finite (f64_div x y).
Proof. destruct y as [s| | |s m e]; intros H; destruct H; destruct x; reflexivity. Qed.
Lemma nf_mul x y : not_finite x -> not_finite (f64_mul x y).
Proof. destruct x as [s|s| |s m e He]; intros H; try discriminate H; destruct y; reflexivity. Qed.
Lemma nf_div x y : not_finite x -> not_finite (f64_div x y).
Proof. destruct x as [s|s| |s m e He]; intros H; try discriminate H; destruct y; reflexivity. Qed.
Lemma nf_add_l x y : not_finite x -> not_finite (f64_add x y).
Proof. destruct x as [s|s| |s m e He]; intros H; try discriminate H; destruct y as [t|t| |t n d Hd]; try reflexivity; destruct s, t; reflexivity. Qed.
Lemma nf_add_r x y : not_finite y -> not_finite (f64_add x y).
Proof. destruct y as [s|s| |s m e He]; intros H; try discriminate H; destruct x as [t|t| |t n d Hd]; try reflexivity; destruct s, t; reflexivity. Qed.
Lemma lit0 : #0 = B754_zero false. Proof. with_strategy transparent [f64_of_Z] reflexivity. Qed.
Lemma lit2_finite : is_finite #2 = true. Proof. with_strategy transparent [f64_of_Z] (vm_compute; reflexivity). Qed.

(** No index that the program computes is a finite number, nor is their mean: whatever the stresses and the positions, and whatever
    [std::exp], [std::sin] and [std::cos] return. *)
Theorem C123_never_finite :
  forall (L : Libm) (n_exp : F64 -> F64) angle stress positions rows prows,
  repr stress 6 rows -> dimension stress = 3 -> 9 * len rows < 2 ^ 32 -> repr positions 3 prows -> len rows <= len prows ->
  exists xs m, @critical_main F64 (f64_num L) n_exp #0 angle stress positions = Ok (mk 1 (col xs) 3, Number m) /\
    len xs <= len rows /\ Forall not_finite xs /\ not_finite m.
Proof.
  intros L n_exp angle s p rows prows Hs Hd Hm Hp Hl.
  destruct (@C123_pipeline_partial F64 (f64_num L) n_exp #0 angle s p rows prows Hs Hd Hm Hp Hl) as (vals & vecs & _ & Lv & _ & E); cbv zeta in E.
  assert (Fx : Forall not_finite (@indices F64 (f64_num L) n_exp #0 angle vals prows)).
  { apply Forall_forall; intros x Hx; apply in_map_iff in Hx; destruct Hx as (vp & <- & _); apply nf_mul, by_zn, zn_div, zn_mul.
    apply zn_mul_r; [exact lit2_finite|rewrite lit0; exact I]. }
  do 2 eexists; split; [exact E|]; split; [|split; [exact Fx|]].
  - unfold indices; rewrite len_map; unfold len.
    assert (F : forall (q : list (list F64 * list F64)) f, (length (filter f q) <= length q)%nat)
      by (induction q as [|x q IH]; intros f; cbn [filter length]; [lia|destruct (f x); cbn [length]; specialize (IH f); lia]).
    match goal with |- context [filter ?f ?q] => specialize (F q f) end; rewrite combine_length in F; lia.
  - clear E; destruct Fx as [|x xs Hx Fx].
    + cbn [fold_left]; change (len (@nil F64)) with 0; apply by_zn; cbn [n_of_Z f64_num]; rewrite lit0; exact I.
    + apply nf_div; cbn [fold_left n_add n_of_Z f64_num]; assert (A : not_finite (f64_add #0 x)) by (apply nf_add_r; exact Hx).
      revert A; generalize (f64_add #0 x); clear -Fx; induction Fx as [|y l Hy Fl IH]; intros acc A; cbn [fold_left]; [exact A|].
      apply IH, nf_add_l; exact A.
Qed.
Print Assumptions C123_never_finite.

(** the index is a number that can be compared: false for the program as it stands *)
Definition index_usable (cohesion : F64) : Prop :=
  forall (L : Libm) n_exp angle stress positions rows prows xs m,
  repr stress 6 rows -> dimension stress = 3 -> 9 * len rows < 2 ^ 32 -> repr positions 3 prows -> len rows <= len prows ->
  @critical_main F64 (f64_num L) n_exp cohesion angle stress positions = Ok (mk 1 (col xs) 3, Number m) -> is_finite m = true.
Theorem C123_usable_refuted : ~ index_usable #0.
Proof.
  intros H.
  destruct (C123_never_finite libm0 (fun x => x) #1 (mk 6 [[#(-1); #0; #0; #(-2); #0; #(-3)]] 3) (mk 3 [[#0; #0; #0]] 3) [[#(-1); #0; #0; #(-2); #0; #(-3)]] [[#0; #0; #0]]) as (xs & m & E & _ & _ & Fm);
    try (change (9 * 1 < 2 ^ 32); lia); try (change (1 <= 1); lia); try reflexivity; try repr_ex.
  unfold not_finite in Fm; rewrite (H libm0 (fun x => x) #1 (mk 6 [[#(-1); #0; #0; #(-2); #0; #(-3)]] 3) (mk 3 [[#0; #0; #0]] 3) [[#(-1); #0; #0; #(-2); #0; #(-3)]] [[#0; #0; #0]] xs m) in Fm; try exact E;
    try (change (9 * 1 < 2 ^ 32); lia); try (change (1 <= 1); lia); try reflexivity; try repr_ex; discriminate Fm.
Qed.
Print Assumptions C123_usable_refuted.

(** ** In exact arithmetic, with a positive cohesion: the kept items are compressed in every direction, and no index is negative *)
Theorem C123_exact_partial :
  forall cohesion angle stress positions rows prows,
  repr stress 6 rows -> dimension stress = 3 -> 9 * len rows < 2 ^ 32 -> repr positions 3 prows -> len rows <= len prows -> rows <> [] ->
  (0 < cohesion)%R -> (0 < cos angle)%R -> (sin angle < 1)%R ->
  exists vals xs m, @eigenValues R r_num stress = Ok (mk 3 vals 3) /\ length vals = length rows /\
    @critical_main R r_num exp cohesion angle stress positions = Ok (mk 1 (col xs) 3, Number m) /\
    length xs = length (filter (fun v => forallb (fun x => Rlt_bool x 0) v) vals) /\
    Forall (fun x => (0 <= x)%R) xs /\ (xs <> [] -> (0 <= m)%R).
Proof.
  intros c a s p rows prows Hs Hd Hm Hp Hl Hne Hc Hcos Hsin.
  destruct (@C123_pipeline_partial R r_num exp c a s p rows prows Hs Hd Hm Hp Hl) as (vals & vecs & Ee & Lv & Rv & E); cbv zeta in E.
  destruct (@C83_sorted_and_agree R r_num s 3 rows (or_intror eq_refl) Hs Hd Hne Hm) as (pairs & E1 & _ & E3 & Lp & Hpairs).
  rewrite Ee in E3; injection E3 as Ec _.
  assert (Ev : vals = map fst pairs).
  { assert (Rp : rows_of_size 3 (map fst pairs)).
    { apply Forall_forall; intros v Hv; apply in_map_iff in Hv; destruct Hv as (ew & <- & Hew); rewrite Forall_forall in Hpairs; apply (Hpairs ew Hew). }
    assert (Ll : length vals = length (map fst pairs)) by (rewrite map_length; lia).
    clear -Ec Rv Rp Ll; revert Ec Rp Ll; generalize (map fst pairs); induction Rv as [|v l Hv _ IH]; intros [|w m] Ec Rp Ll; cbn [length] in Ll; try lia; [reflexivity|].
    apply Forall_cons_iff in Rp; destruct Rp as [Hw Rp]; destruct (len3 v Hv) as (? & ? & ? & ->); destruct (len3 w Hw) as (? & ? & ? & ->).
    cbn [concat app] in Ec; injection Ec as -> -> -> Ec; rewrite (IH m Ec Rp) by lia; reflexivity. }
  assert (Hsorted : Forall (fun v => exists x y z, v = [x; y; z] /\ (z <= y <= x)%R) vals).
  { rewrite Ev; apply Forall_forall; intros v Hv; apply in_map_iff in Hv; destruct Hv as (ew & <- & Hew).
    rewrite Forall_forall in Hpairs; destruct (Hpairs ew Hew) as (L3 & _ & S).
    specialize (S (fun _ => True) (fun x => x)); destruct (len3 (fst ew) L3) as (x & y & z & Eq); rewrite Eq in S.
    assert (O : @ordered_by R r_num (fun _ => True) (fun x => x)) by (exact r_ordered).
    specialize (S O ltac:(repeat constructor)).
    apply StronglySorted_inv in S; destruct S as [S H1]; apply StronglySorted_inv in S; destruct S as [_ H2].
    exists x, y, z; split; [exact Eq|]; apply Forall_inv in H1; apply Forall_inv in H2; lra. }
  assert (Flen : forall (f : list R -> bool) (l m : list (list R)), (length l <= length m)%nat ->
            length (filter (fun vp => f (fst vp)) (combine l m)) = length (filter f l)).
  { intros f; induction l as [|v l IH]; intros [|q m] Hh; cbn [length] in Hh; try lia; try reflexivity.
    cbn [combine filter fst]; destruct (f v); cbn [length]; rewrite IH by lia; reflexivity. }
  assert (Hx : Forall (fun x => (0 <= x)%R) (@indices R r_num exp c a vals prows)).
  { apply Forall_forall; intros x Hx; apply in_map_iff in Hx; destruct Hx as ([v q] & <- & Hin); apply filter_In in Hin; destruct Hin as [Hin _].
    apply in_combine_l in Hin; rewrite Forall_forall in Hsorted; destruct (Hsorted v Hin) as (x & y & z & -> & Ho).
    unfold index; cbn [fst snd nth n_mul n_div n_sub n_of_Z n_cos n_sin n_opp r_num].
    apply Rmult_le_pos; [|left; apply exp_pos]; apply Rmult_le_pos; [lra|].
    left; apply Rinv_0_lt_compat, Rmult_lt_0_compat; [apply Rmult_lt_0_compat; [lra|exact Hcos]|apply Rinv_0_lt_compat; lra]. }
  exists vals; do 2 eexists; split; [rewrite Ev; exact E1|]; split; [exact Lv|]; split; [exact E|]; split; [|split; [exact Hx|]].
  - unfold indices; rewrite map_length, Flen by (unfold len in *; lia).
    clear -Hsorted; induction Hsorted as [|v l (x & y & z & -> & Ho) _ IH]; [reflexivity|]; cbn [filter forallb].
    change (@compressed R r_num [x; y; z]) with (Rlt_bool x 0).
    destruct (Rlt_bool_spec x 0) as [Hlt|Hge].
    + rewrite !Rlt_bool_true by lra; cbn [andb length]; rewrite IH; reflexivity.
    + cbn [andb]; exact IH.
  - intros Hn; cbn [n_div n_add n_of_Z r_num]; clear E; revert Hx Hn; generalize (@indices R r_num exp c a vals prows); intros xs Hx Hn.
    apply Rmult_le_pos.
    + assert (G : forall l acc, Forall (fun x => (0 <= x)%R) l -> (0 <= acc)%R -> (0 <= fold_left Rplus l acc)%R)
        by (induction l as [|y l IH]; intros acc Hll Ha; cbn [fold_left]; [exact Ha|apply Forall_cons_iff in Hll; destruct Hll; apply IH; [assumption|lra]]).
      apply G; [exact Hx|lra].
    + left; apply Rinv_0_lt_compat, IZR_lt; destruct xs; [congruence|]; rewrite len_cons; pose proof (len_nonneg xs); lia.
Qed.
Print Assumptions C123_exact_partial.

(** the angle of 30 degrees and a cohesion of 1; the three tensors of the program *)
Example C123_ex :
  let rows := [[-2; 4; 6; -3; 6; -9]; [1; 2; 3; 4; 5; 6]; [9; 8; 7; 6; 5; 4]]%R in
  let prows := [[0; 0; 0]; [1; 0; 0]; [2; 0; 0]]%R in
  repr (mk 6 rows 3) 6 rows /\ repr (mk 3 prows 3) 3 prows /\ 9 * len rows < 2 ^ 32 /\ len rows <= len prows /\
  (0 < cos (30 * PI / 180))%R /\ (sin (30 * PI / 180) < 1)%R.
Proof.
  cbv zeta; split; [repr_ex|]; split; [repr_ex|]; split; [change (9 * 3 < 2 ^ 32); lia|]; split; [change (3 <= 3); lia|].
  replace (30 * PI / 180)%R with (PI / 6)%R by field; rewrite cos_PI6, sin_PI6; split; [|lra].
  assert (0 < sqrt 3)%R by (apply sqrt_lt_R0; lra); lra.
Qed.
