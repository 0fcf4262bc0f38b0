(** * C21 - C25: findAll, forEach over several Series, reduce, check, pipe and compose. *)
From Verif Require Import Base Num Serie Spec BaseFacts SerieFacts Functional FunctionalFacts F64 F64Facts
  Props_Functional Props_Filter.
From Coq Require Import Permutation.

Ltac Zify.zify_post_hook ::= Z.div_mod_to_equations.
Opaque f64_of_Z.
#[local] Existing Instance F64N.

(** ** C21 *)
Theorem C21_findAll_filter :
  forall (T : Type) (NT : Num T) (St : Type) (s : Serie T) (st : St) (bs : list bool) (st' : St),
  (forall (cb : T -> Z -> M St bool) xs,
     repr s 1 (col xs) -> calls cb (enum xs) st bs st' ->
     findAll_s cb s st = filter_s cb s st /\
     findAll_s cb s st = (Ok (mk 1 (col (select xs bs)) 3), st')) /\
  (forall (cb : list T -> Z -> M St bool) k rows,
     repr s k rows -> calls cb (enum rows) st bs st' ->
     findAll_v cb s st = filter_v cb s st /\
     findAll_v cb s st = (Ok (mk k (select rows bs) 3), st')).
Proof.
  intros T NT St s st bs st'; split.
  - intros cb xs Hs Hc.
    assert (E : findAll_s cb s st = (Ok (mk 1 (col (select xs bs)) 3), st')).
    { unfold findAll_s; destruct (repr_col_len s xs Hs) as [-> Hl].
      rewrite (mbind_ok _ _ _ _ _ (collect_ok _ cb true xs st bs st' (reads_scalar s xs Hs) Hc)).
      rewrite eqb_true_map; unfold lift.
      assert (Ee : map snd (enum xs) = map snd (enum (col xs))).
      { unfold enum; change 0 with (Z.of_nat 0); rewrite !map_snd_enum; unfold col; rewrite map_length; reflexivity. }
      rewrite Ee, (take_any_select s 1 (col xs) bs Hs); unfold col; rewrite select_map; reflexivity. }
    split; [rewrite E; symmetry; apply filter_s_ok; assumption|exact E].
  - intros cb k rows Hs Hc.
    assert (E : findAll_v cb s st = (Ok (mk k (select rows bs) 3), st')).
    { unfold findAll_v; rewrite (repr_count s k rows Hs).
      rewrite (mbind_ok _ _ _ _ _ (collect_ok _ cb true rows st bs st' (reads_array s k rows Hs) Hc)).
      rewrite eqb_true_map; unfold lift; rewrite (take_any_select s k rows bs Hs); reflexivity. }
    split; [rewrite E; symmetry; eapply filter_v_ok; eassumption|exact E].
Qed.
Print Assumptions C21_findAll_filter.

Example C21_witness :
  let s := mk 2 [[#1; #2]; [#3; #4]; [#5; #6]] 3 in
  repr s 2 [[#1; #2]; [#3; #4]; [#5; #6]] /\
  run (findAll_v (fun _ i => ret (1 <=? i)) s) = Ok (mk 2 [[#3; #4]; [#5; #6]] 3).
Proof. split; [repr_ex|reflexivity]. Qed.

(** ** C22 *)
Theorem C22_forEach_multi :
  forall (T : Type) (NT : Num T) (St : Type) (ss : list (Serie T)) kts n (st : St) cb,
  ss <> [] -> reprs ss kts -> same_count n kts ->
  let args := enum (tuples (Z.to_nat n) (map snd kts)) in
  (forall ys st', calls cb args st ys st' -> forEach_n cb ss st = (Ok tt, st')) /\
  (forall e st', calls_throw cb args st e st' -> forEach_n cb ss st = (Throw e, st')) /\
  (n = 0 -> forEach_n cb ss st = (Ok tt, st)).
Proof.
  intros T NT St ss kts n st cb Hne Hr Hc args.
  pose proof (reprs_bound ss kts n Hr Hc Hne) as Hb.
  destruct (multi_reads ss kts n Hr Hc Hne) as [Hcc Hg].
  pose proof (tuples_len_Z n (map snd kts) ltac:(lia)) as Hl.
  assert (A : forall ys st', calls cb args st ys st' -> forEach_n cb ss st = (Ok tt, st')).
  { intros ys st' Hcalls; unfold forEach_n.
    rewrite (mbind_ok _ _ st n st) by (unfold lift; rewrite Hcc; reflexivity).
    rewrite <- Hl at 1; rewrite (mbind_ok _ _ _ _ _ (each_ok _ cb _ st ys st' Hg Hcalls)); reflexivity. }
  split; [exact A|]; split.
  - intros e st' Hcalls; unfold forEach_n.
    rewrite (mbind_ok _ _ st n st) by (unfold lift; rewrite Hcc; reflexivity).
    rewrite <- Hl at 1; unfold mbind; rewrite (each_throw _ cb _ st e st' Hg Hcalls); reflexivity.
  - intros ->; apply (A []); constructor.
Qed.
Print Assumptions C22_forEach_multi.

(** the calls made, as a log; and no call at all on unequal counts *)
Theorem C22_forEach_multi_log :
  forall (T : Type) (NT : Num T) (ss : list (Serie T)) kts n,
  ss <> [] -> reprs ss kts -> same_count n kts ->
  snd (forEach_n (logging (fun _ _ => tt)) ss []) = enum (tuples (Z.to_nat n) (map snd kts)).
Proof.
  intros T NT ss kts n Hne Hr Hc.
  destruct (C22_forEach_multi T NT _ ss kts n [] (logging (fun _ _ => tt)) Hne Hr Hc) as [A _].
  rewrite (A _ _ (calls_logging (fun _ _ => tt) _ [])); reflexivity.
Qed.
Print Assumptions C22_forEach_multi_log.

Theorem C22_forEach_multi_refused :
  forall (T : Type) (NT : Num T) (St : Type) (ss : list (Serie T)) s1 s2 (st : St) cb,
  In s1 ss -> In s2 ss -> count s1 <> count s2 ->
  forEach_n cb ss st = (Throw InvalidArgument, st).
Proof.
  intros T NT St ss s1 s2 st cb H1 H2 Hne; pose proof (countAndCheck_throw ss s1 s2 H1 H2 Hne) as E.
  unfold forEach_n, mbind at 1, lift at 1; rewrite E; reflexivity.
Qed.
Print Assumptions C22_forEach_multi_refused.

Example C22_witness :
  let s1 := mk 1 (col [#1; #2]) 3 in
  let s2 := mk 2 [[#3; #4]; [#5; #6]] 3 in
  let kts := [(1, col [#1; #2]); (2, [[#3; #4]; [#5; #6]])] in
  reprs [s1; s2] kts /\ same_count 2 kts /\
  enum (tuples 2 (map snd kts)) = [([[#1]; [#3; #4]], 0); ([[#2]; [#5; #6]], 1)].
Proof. split; [constructor; [repr_ex|constructor; [repr_ex|constructor]]|]; split; [repeat constructor|reflexivity]. Qed.

(** ** C23 *)
Theorem C23_reduce :
  forall (T : Type) (NT : Num T) (St : Type) (s : Serie T) (st : St),
  (forall (cb : T -> T -> Z -> M St T) xs init r st',
     repr s 1 (col xs) -> folds cb (enum xs) init st r st' ->
     reduce_s cb s init st = (Ok r, st')) /\
  (forall (cb : list T -> list T -> Z -> M St (list T)) k rows init r st',
     repr s k rows -> folds cb (enum rows) init st r st' -> 1 <= len r < 2 ^ 31 ->
     reduce_v cb s init st = (Ok (mk (len r) [r] 3), st')).
Proof.
  intros T NT St s st; split.
  - intros cb xs init r st' Hs H; unfold reduce_s; destruct (repr_col_len s xs Hs) as [-> Hl].
    apply folds_foldM in H; rewrite iota_len, (foldM_index (get_double s) cb xs 0 (reads_scalar s xs Hs)); exact H.
  - intros cb k rows init r st' Hs H Hr; unfold reduce_v; rewrite (repr_count s k rows Hs).
    apply folds_foldM in H.
    assert (E : foldM (fun result i => let! x := lift (get_array s i) in cb result x i) (iota (len rows)) init st
                = (Ok r, st')).
    { rewrite iota_len, (foldM_index (get_array s) cb rows 0 (reads_array s k rows Hs)); exact H. }
    rewrite (mbind_ok _ _ _ _ _ E); unfold lift; rewrite s32_small by lia.
    pose proof (serie_of_rows (len r) [r]) as Hso; simpl in Hso; rewrite app_nil_r in Hso.
    rewrite Hso; [reflexivity|lia|repeat constructor|reflexivity].
Qed.
Print Assumptions C23_reduce.

Theorem C23_reduce_empty :
  forall (T : Type) (NT : Num T) (St : Type) (s : Serie T) (st : St) init cb,
  count s = 0 -> reduce_s cb s init st = (Ok init, st).
Proof. intros T NT St s st init cb E; unfold reduce_s; rewrite E; reflexivity. Qed.
Print Assumptions C23_reduce_empty.

(** pure accumulators: the standard left fold; index-free ones split over concatenation *)
Lemma folds_pure {St A X} (f : A -> X -> A) (xs : list X) : forall i (a : A) (st : St),
  folds (fun a x _ => ret (f a x)) (enum_from i xs) a st (fold_left f xs a) st.
Proof.
  induction xs as [|x xs IH]; intros i a st; simpl; [constructor|econstructor; [reflexivity|apply IH]].
Qed.

Theorem C23_reduce_fold_left :
  forall (T : Type) (NT : Num T) (s : Serie T) xs (f : T -> T -> T) init,
  repr s 1 (col xs) -> run (reduce_s (fun a x _ => ret (f a x)) s init) = Ok (fold_left f xs init).
Proof.
  intros T NT s xs f init Hs; unfold run.
  destruct (C23_reduce T NT unit s tt) as [A _].
  rewrite (A _ xs init _ tt Hs (folds_pure f xs 0 init tt)); reflexivity.
Qed.
Print Assumptions C23_reduce_fold_left.

Example C23_witness :
  let s := mk 1 (col [#1; #2; #3]) 3 in
  repr s 1 (col [#1; #2; #3]) /\
  run (reduce_s (fun a x i => ret (n_sub a x)) s #10) = Ok (n_sub (n_sub (n_sub #10 #1) #2) #3).
Proof. split; [repr_ex|reflexivity]. Qed.

(** ** C24 *)
Theorem C24_check_mask :
  forall (T : Type) (NT : Num T) (St : Type) (s : Serie T) (st : St) (bs : list bool) (st' : St),
  (forall (cb : T -> Z -> M St bool) xs,
     repr s 1 (col xs) -> calls cb (enum xs) st bs st' ->
     check_s s cb st = (Ok (mk 1 (col (map (fun b : bool => if b then n_of_Z 1 else n_of_Z 0) bs)) 3), st')) /\
  (forall (cb : list T -> Z -> M St bool) k rows,
     repr s k rows -> calls cb (enum rows) st bs st' ->
     check_v s cb st = (Ok (mk 1 (col (map (fun b : bool => if b then n_of_Z 1 else n_of_Z 0) bs)) 3), st')).
Proof.
  intros T NT St s st bs st'; split.
  - intros cb xs Hs Hc; unfold check_s; destruct (repr_col_len s xs Hs) as [-> Hl].
    apply map_num_ok; auto; [apply reads_scalar; exact Hs|apply calls_check; exact Hc].
  - intros cb k rows Hs Hc; unfold check_v; rewrite (repr_count s k rows Hs).
    apply map_num_ok; auto; [eapply reads_array; exact Hs|eapply repr_len_bound; exact Hs|apply calls_check; exact Hc].
Qed.
Print Assumptions C24_check_mask.

(** the floating-point sum of the mask is the count of the filtered Serie, exactly *)
Lemma sum_bits (L : Libm) bs : forall a, 0 <= a -> a + len bs <= 2 ^ 53 ->
  fold_left (@n_add F64 (f64_num L)) (map (fun b : bool => if b then #1 else #0) bs) #a
  = f64_of_Z (a + len (select bs bs)).
Proof.
  induction bs as [|b bs IH]; intros a Ha Hb; simpl.
  - rewrite Z.add_0_r; reflexivity.
  - rewrite len_cons in Hb; pose proof (len_nonneg bs).
    assert (Hsel : forall (l : list bool) x, len (x :: l) = 1 + len l) by (intros; rewrite len_cons; lia).
    change (n_add (f64_of_Z a) (if b then #1 else #0)) with (f64_add (f64_of_Z a) (if b then #1 else #0)).
    destruct b; rewrite f64_add_int, IH by lia.
    + rewrite Hsel; f_equal; lia.
    + f_equal; lia.
Qed.
Lemma select_len_eq {A B} (xs : list A) (ys : list B) bs : length xs = length ys ->
  len (select xs bs) = len (select ys bs).
Proof.
  revert ys bs; induction xs as [|x xs IH]; intros [|y ys] bs E; try discriminate; [reflexivity|].
  destruct bs as [|b bs]; [reflexivity|]; simpl; injection E as E.
  destruct b; [rewrite !len_cons; f_equal|]; apply IH; exact E.
Qed.

Theorem C24_mask_sum :
  forall (L : Libm) (s : Serie F64) k rows (p : list F64 -> Z -> bool),
  let NF := f64_num L in
  repr s k rows ->
  exists mask kept,
    run (check_v s (fun x i => ret (p x i))) = Ok mask /\
    run (filter_v (fun x i => ret (p x i)) s) = Ok kept /\
    run (reduce_s (fun a x _ => ret (n_add a x)) mask (f64_of_Z 0)) = Ok (f64_of_Z (count kept)).
Proof.
  intros L s k rows p NF Hs; unfold run.
  set (bs := map (fun q => p (fst q) (snd q)) (enum rows)).
  pose proof (calls_pure p (enum rows) tt) as Hc; fold bs in Hc.
  destruct (C24_check_mask F64 NF unit s tt bs tt) as [_ A].
  destruct (C15_filter F64 NF unit s tt bs tt) as [_ B].
  eexists; eexists; rewrite (A _ k rows Hs Hc), (B _ k rows Hs Hc).
  split; [reflexivity|]; split; [reflexivity|].
  assert (Hlb : length bs = length rows) by (unfold bs, enum; rewrite map_length, enum_from_length; reflexivity).
  pose proof (repr_len_bound s k rows Hs) as Hl; pose proof (len_nonneg rows) as Hp.
  set (ms := map (fun b : bool => if b then n_of_Z 1 else n_of_Z 0) bs).
  assert (Hm : repr (mk 1 (col ms) 3) 1 (col ms)).
  { apply repr_col_mk; unfold ms, len in *; rewrite map_length; lia. }
  pose proof (C23_reduce_fold_left F64 NF _ ms n_add (f64_of_Z 0) Hm) as R; unfold run in R.
  rewrite R; unfold ms.
  change (map (fun b : bool => if b then n_of_Z 1 else n_of_Z 0) bs)
    with (map (fun b : bool => if b then #1 else #0) bs).
  assert (Hlb' : len bs = len rows) by (unfold len; congruence).
  unfold NF; rewrite (sum_bits L bs 0) by lia.
  do 2 f_equal; simpl; unfold count; simpl; apply select_len_eq; exact Hlb.
Qed.
Print Assumptions C24_mask_sum.

Example C24_witness :
  let s := mk 2 [[#1; #2]; [#3; #4]; [#5; #6]] 3 in
  repr s 2 [[#1; #2]; [#3; #4]; [#5; #6]] /\
  run (check_v s (fun _ i => ret (negb (i =? 1)))) = Ok (mk 1 (col [#1; #0; #1]) 3).
Proof. split; [repr_ex|reflexivity]. Qed.

(** ** C25 *)
Section C25.
  Context {St D : Type}.
  Lemma pipe_stages (ops : list (D -> M St D)) x st o st' :
    ops <> [] -> stages ops x st o st' -> pipe x ops st = (o, st').
  Proof.
    intros Hne H; revert Hne; induction H as [x st|f fs x st y st1 o st2 Hf Hr IH|f fs x st e st1 Hf]; intros Hne.
    - congruence.
    - destruct fs as [|g fs].
      + inversion Hr; subst; simpl; exact Hf.
      + cbn [pipe]; rewrite (mbind_ok _ _ _ _ _ Hf); apply IH; discriminate.
    - destruct fs as [|g fs]; [exact Hf|].
      cbn [pipe]; unfold mbind; rewrite Hf; reflexivity.
  Qed.
  Lemma stages_app (l r : list (D -> M St D)) x st o st' :
    stages (l ++ r) x st o st' <->
    ((exists y st1, stages l x st (Ok y) st1 /\ stages r y st1 o st') \/
     (exists e, o = Throw e /\ stages l x st (Throw e) st')).
  Proof.
    revert x st; induction l as [|f l IH]; intros x st; simpl.
    - split.
      + intros H; left; exists x, st; split; [constructor|exact H].
      + intros [(y & st1 & H1 & H2)|(e & -> & H)]; [inversion H1; subst; exact H2|inversion H].
    - split.
      + intros H; inversion H; subst.
        * match goal with H1 : stages (l ++ r) _ _ _ _ |- _ => rename H1 into Hx end.
          apply IH in Hx; destruct Hx as [(y1 & st3 & Hx & Hx2)|(e & He & Hx)].
          -- left; exists y1, st3; split; [econstructor; eauto|exact Hx2].
          -- right; exists e; split; [exact He|econstructor; eauto].
        * right; eexists; split; [reflexivity|apply st_throw; assumption].
      + intros [(y & st1 & H1 & H2)|(e & -> & H)].
        * inversion H1; subst; econstructor; [eassumption|]; apply IH; left; eauto.
        * inversion H; subst; [econstructor; [eassumption|]; apply IH; right; eauto|apply st_throw; assumption].
  Qed.
  Lemma compose_from_stages (fs : list (D -> M St D)) : forall f x st o st',
    stages (rev (f :: fs)) x st o st' -> compose_from f fs x st = (o, st').
  Proof.
    induction fs as [|g fs IH]; intros f x st o st' H.
    - simpl in H; inversion H; subst; simpl.
      + match goal with H1 : stages [] _ _ _ _ |- _ => inversion H1; subst end; assumption.
      + assumption.
    - change (rev (f :: g :: fs)) with (rev (g :: fs) ++ [f]) in H.
      apply stages_app in H; cbn [compose_from]; unfold compose2, mbind.
      destruct H as [(y & st1 & H1 & H2)|(e & -> & H)].
      + rewrite (IH g x st _ _ H1); inversion H2; subst; [|assumption].
        match goal with H1 : stages [] _ _ _ _ |- _ => inversion H1; subst end; assumption.
      + rewrite (IH g x st _ _ H); reflexivity.
  Qed.
End C25.

(** [stages fs x st o st']: run [fs] in list order starting from x; stop at the first exception *)
Theorem C25_pipe_compose :
  forall (St D : Type) (fs : list (D -> M St D)) (x : D) (st st' : St) o,
  stages fs x st o st' ->
  (fs <> [] -> pipe x fs st = (o, st') /\ make_pipe fs x st = (o, st')) /\
  ((2 <= length fs)%nat -> compose (rev fs) x st = (o, st') /\ pipe x fs st = compose (rev fs) x st).
Proof.
  intros St D fs x st st' o H; split.
  - intros Hne; split; apply pipe_stages; assumption.
  - intros Hl; assert (E : compose (rev fs) x st = (o, st')).
    { destruct (rev fs) as [|f [|g r]] eqn:Er.
      - apply (f_equal (@length _)) in Er; rewrite rev_length in Er; simpl in Er; lia.
      - apply (f_equal (@length _)) in Er; rewrite rev_length in Er; simpl in Er; lia.
      - unfold compose; apply compose_from_stages; rewrite <- Er, rev_involutive; exact H. }
    split; [exact E|]; rewrite E; apply pipe_stages; [destruct fs; simpl in Hl; [lia|discriminate]|exact H].
Qed.
Print Assumptions C25_pipe_compose.

(** for side-effect free stages: [fn (... (f1 x))] and [f1 (... (fn x))] *)
Theorem C25_pipe_compose_pure :
  forall (D : Type) (fs : list (D -> D)) (x : D),
  let ops := map (fun (f : D -> D) y => @ret unit D (f y)) fs in
  (fs <> [] -> run (pipe x ops) = Ok (fold_left (fun y f => f y) fs x)) /\
  ((2 <= length fs)%nat -> run (compose ops x) = Ok (fold_right (fun f y => f y) x fs)).
Proof.
  intros D fs x ops.
  assert (P : forall l (z : D), stages (map (fun (f : D -> D) y => @ret unit D (f y)) l) z tt
                (Ok (fold_left (fun y f => f y) l z)) tt).
  { induction l as [|f l IH]; intros z; simpl; [constructor|econstructor; [reflexivity|apply IH]]. }
  split.
  - intros Hne; unfold run; destruct (C25_pipe_compose unit D ops x tt tt _ (P fs x)) as [A _].
    destruct A as [-> _]; [destruct fs; [congruence|discriminate]|reflexivity].
  - intros Hl; unfold run.
    destruct (C25_pipe_compose unit D (rev ops) x tt tt (Ok (fold_right (fun f y => f y) x fs))) as [_ A].
    + unfold ops; rewrite <- map_rev.
      replace (fold_right (fun f y => f y) x fs) with (fold_left (fun y f => f y) (rev fs) x); [apply P|].
      rewrite fold_left_rev_right with (l := fs) (f := fun f y => f y) || idtac.
      rewrite <- (rev_involutive fs) at 2; symmetry; apply fold_left_rev_right.
    + destruct A as [A _]; [rewrite rev_length; unfold ops; rewrite map_length; exact Hl|].
      rewrite rev_involutive in A; rewrite A; reflexivity.
Qed.
Print Assumptions C25_pipe_compose_pure.

(** the third stage throws: the fourth does not run (the log shows 1, 2, 3) *)
Example C25_witness :
  let ok i := fun (x : Z) (log : list Z) => (Ok (x + i), log ++ [i]) in
  let bad := fun (x : Z) (log : list Z) => (Throw RuntimeError, log ++ [3]) : outcome Z * list Z in
  stages [ok 1; ok 2; bad; ok 4] 10 [] (Throw RuntimeError) [1; 2; 3] /\
  pipe 10 [ok 1; ok 2; bad; ok 4] [] = (Throw RuntimeError, [1; 2; 3]).
Proof.
  split; [|reflexivity].
  eapply st_ok; [reflexivity|]; eapply st_ok; [reflexivity|]; apply st_throw; reflexivity.
Qed.
