(** * C138: the pipeline of examples/stress-state. *)
From Verif Require Import Base Num Serie Spec BaseFacts SerieFacts Functional FunctionalFacts Utils F64 F64Facts Props_Functional Props_Filter Props_Zip.
From Verif Require Import StressState.
Open Scope Z_scope.

Section Pipeline.
  Context {T : Type} {NT : Num T}.
  (** the rows that are kept: at most 2 away, with a negative trace *)
  Definition near_and_compressive (x : list T * T * T) : bool :=
    let '(s, d, _) := x in
    negb (n_ltb (n_of_Z 2) d) && n_ltb (n_add (n_add (nth 0 s n0) (nth 3 s n0)) (nth 5 s n0)) (n_of_Z 0).
  Definition triples (ss : list (list T)) (ds ts : list T) : list (list T * T * T) := combine (combine ss ds) ts.
  Definition row8 (x : list T * T * T) : list T := let '(s, d, t) := x in s ++ [d; t].

  Lemma zipped_rows ss ds ts : length ss = length ds -> length ss = length ts ->
    map (@concat T) (tuples (length ss) [ss; col ds; col ts]) = map row8 (triples ss ds ts).
  Proof.
    unfold tuples; revert ds ts; induction ss as [|s ss IH]; intros [|d ds] [|t ts] Ed Et; try discriminate; [reflexivity|].
    injection Ed as Ed; injection Et as Et.
    cbn [length seq map]; rewrite <- seq_shift, map_map.
    unfold triples; cbn [combine map]; fold (triples ss ds ts); f_equal.
    rewrite <- (IH ds ts Ed Et), !map_map; reflexivity.
  Qed.

  Lemma triples_length ss ds ts : length ss = length ds -> length ss = length ts -> length (triples ss ds ts) = length ss.
  Proof. intros; unfold triples; rewrite !combine_length; lia. Qed.

  Lemma rows8 ss ds ts : rows_of_size 6 ss -> rows_of_size 8 (map row8 (triples ss ds ts)).
  Proof.
    intros Hs; unfold rows_of_size in *; rewrite Forall_forall in *; intros r Hr.
    apply in_map_iff in Hr; destruct Hr as ([[s d] t] & <- & Hin).
    apply in_combine_l in Hin; apply in_combine_l in Hin; specialize (Hs s Hin).
    unfold row8; rewrite len_app, !len_cons, len_nil; lia.
  Qed.
  Lemma in_triples_row ss ds ts s d t : rows_of_size 6 ss -> In (s, d, t) (triples ss ds ts) -> len s = 6.
  Proof.
    intros Hs Hin; apply in_combine_l in Hin; apply in_combine_l in Hin.
    unfold rows_of_size in Hs; rewrite Forall_forall in Hs; exact (Hs s Hin).
  Qed.

  (** the callbacks on a row of size 8 *)
  Lemma too_far_row s d t i : len s = 6 -> too_far (row8 (s, d, t)) i tt = (Ok (n_ltb (n_of_Z 2) d), tt).
  Proof.
    destruct s as [|a [|b [|c [|e [|f [|g [|h s]]]]]]]; intros Hl; try discriminate Hl; [reflexivity|].
    unfold len in Hl; cbn [length] in Hl; lia.
  Qed.
  Lemma compressive_row s d t i : len s = 6 ->
    compressive (row8 (s, d, t)) i tt =
    (Ok (n_ltb (n_add (n_add (nth 0 s n0) (nth 3 s n0)) (nth 5 s n0)) (n_of_Z 0)), tt).
  Proof.
    destruct s as [|a [|b [|c [|e [|f [|g [|h s]]]]]]]; intros Hl; try discriminate Hl; [reflexivity|].
    unfold len in Hl; cbn [length] in Hl; lia.
  Qed.

  Lemma pure_calls {A} (g : A -> list T) (cb : list T -> Z -> M unit bool) (p : A -> bool) l : forall i0,
    (forall x i, In x l -> cb (g x) i tt = (Ok (p x), tt)) ->
    calls cb (enum_from i0 (map g l)) tt (map p l) tt.
  Proof.
    induction l as [|x l IH]; intros i0 Hp; cbn [map enum_from]; [constructor|].
    econstructor; [apply Hp; left; reflexivity|apply IH; intros; apply Hp; right; assumption].
  Qed.
  Lemma select_map {A} (g : A -> list T) (p : A -> bool) l : select (map g l) (map p l) = map g (filter p l).
  Proof. induction l as [|x l IH]; [reflexivity|]; cbn [map select filter]; destruct (p x); cbn [map]; rewrite IH; reflexivity. Qed.
  Lemma filter_filter {A} (p q : A -> bool) l : filter q (filter p l) = filter (fun x => p x && q x) l.
  Proof. induction l as [|x l IH]; [reflexivity|]; cbn [filter]; destruct (p x); cbn [filter andb]; rewrite IH; reflexivity. Qed.
  Lemma filter_len {A} (p : A -> bool) l : len (filter p l) <= len l.
  Proof. induction l as [|x l IH]; [reflexivity|]; cbn [filter]; destruct (p x); rewrite !len_cons; lia. Qed.

  Lemma repr8 l : (forall s d t, In (s, d, t) l -> len s = 6) -> 8 * len l < 2 ^ 32 -> repr (mk 8 (map row8 l) 3) 8 (map row8 l).
  Proof.
    intros Hl Hm; change (2 ^ 32) with 4294967296 in Hm.
    assert (E : len (map row8 l) = len l) by (unfold len; rewrite map_length; reflexivity).
    apply repr_mk; [|lia|lia|lia].
    unfold rows_of_size; rewrite Forall_forall; intros r Hr; apply in_map_iff in Hr; destruct Hr as ([[s d] t] & <- & Hin).
    specialize (Hl s d t Hin); unfold row8; rewrite len_app, !len_cons, len_nil; lia.
  Qed.

  (** what reaches [unzip], whatever the sizes *)
  Lemma pipeline_combined stress distances rocks ss ds ts sizes :
    repr stress 6 ss -> repr distances 1 (col ds) -> repr rocks 1 (col ts) ->
    length ss = length ds -> length ss = length ts -> 8 * len ss < 2 ^ 32 ->
    let kept := filter near_and_compressive (triples ss ds ts) in
    repr (mk 8 (map row8 kept) 3) 8 (map row8 kept) /\
    pipeline sizes stress distances rocks = unzip (mk 8 (map row8 kept) 3) sizes.
  Proof.
    intros Hs Hd Ht Ed Et Hm kept.
    assert (H6 : rows_of_size 6 ss) by (destruct Hs as (_ & _ & _ & Hr & _); exact Hr).
    assert (Hrow : forall s d t, In (s, d, t) (triples ss ds ts) -> len s = 6) by (intros; eapply in_triples_row; eassumption).
    assert (Hlen : len (triples ss ds ts) = len ss) by (unfold len; rewrite triples_length; auto).
    set (near := filter (fun x => negb (n_ltb (n_of_Z 2) (snd (fst x)))) (triples ss ds ts)).
    assert (Hnear : repr (mk 8 (map row8 near) 3) 8 (map row8 near)).
    { apply repr8; [intros s d t Hin; apply filter_In in Hin; eapply Hrow; exact (proj1 Hin)|].
      pose proof (filter_len (fun x => negb (n_ltb (n_of_Z 2) (snd (fst x)))) (triples ss ds ts)); fold near in H; lia. }
    assert (Ekept : filter (fun x => n_ltb (n_add (n_add (nth 0 (fst (fst x)) n0) (nth 3 (fst (fst x)) n0)) (nth 5 (fst (fst x)) n0)) (n_of_Z 0)) near = kept).
    { unfold near, kept; rewrite filter_filter; apply filter_ext; intros [[s d] t]; reflexivity. }
    split.
    - apply repr8; [intros s d t Hin; apply filter_In in Hin; eapply Hrow; exact (proj1 Hin)|].
      pose proof (filter_len near_and_compressive (triples ss ds ts)); fold kept in H; lia.
    - unfold pipeline.
      destruct (C35_zip T NT [stress; distances; rocks] [(6, ss); (1, col ds); (1, col ts)] (len ss)) as [Ez _];
        [discriminate|unfold reprs; repeat (apply Forall2_cons; [assumption|]); apply Forall2_nil| | |cbn; lia|cbn [map fst sumZ fold_right]; lia|].
      { unfold same_count, col; repeat constructor; cbn [snd]; unfold len; rewrite ?map_length; lia. }
      { repeat constructor; cbn [fst]; lia. }
      rewrite Ez; cbn [obind map fst snd]; change (sumZ [6; 1; 1]) with 8.
      replace (Z.to_nat (len ss)) with (length ss) by (unfold len; lia).
      rewrite (zipped_rows ss ds ts Ed Et).
      assert (H0 : repr (mk 8 (map row8 (triples ss ds ts)) 3) 8 (map row8 (triples ss ds ts))) by (apply repr8; [exact Hrow|lia]).
      unfold run.
      rewrite (reject_v_ok too_far _ 8 _ tt (map (fun x => n_ltb (n_of_Z 2) (snd (fst x))) (triples ss ds ts)) tt H0)
        by (apply pure_calls; intros [[s d] t] i Hin; apply too_far_row; eapply Hrow; exact Hin).
      rewrite map_map, select_map; fold near; cbn [fst obind].
      rewrite (filter_v_ok compressive _ 8 _ tt (map (fun x => n_ltb (n_add (n_add (nth 0 (fst (fst x)) n0) (nth 3 (fst (fst x)) n0)) (nth 5 (fst (fst x)) n0)) (n_of_Z 0)) near) tt Hnear)
        by (apply pure_calls; intros [[s d] t] i Hin; apply compressive_row; apply filter_In in Hin; eapply Hrow; exact (proj1 Hin)).
      rewrite select_map, Ekept; reflexivity.
  Qed.
End Pipeline.

(** as written, the pipeline throws on every input: the zipped rows have 8 entries, the sizes given add up to 7 *)
Theorem C138_refused :
  forall (T : Type) (NT : Num T) (stress distances rocks : Serie T) ss ds ts,
  repr stress 6 ss -> repr distances 1 (col ds) -> repr rocks 1 (col ts) ->
  length ss = length ds -> length ss = length ts -> 8 * len ss < 2 ^ 32 ->
  stress_state stress distances rocks = Throw InvalidArgument.
Proof.
  intros T NT stress distances rocks ss ds ts Hs Hd Ht Ed Et Hm; unfold stress_state.
  destruct (pipeline_combined stress distances rocks ss ds ts [6; 1] Hs Hd Ht Ed Et Hm) as [_ ->].
  apply C37_unzip_refused; right; split; [change (sumZ [6; 1]) with 7; lia|change (7 <> 8); lia].
Qed.
Print Assumptions C138_refused.

(** with the sizes of the three Series it returns the stresses, distances and rock types of the points that are at most
    2 away with a negative trace, in their order and still aligned *)
Theorem C138_pipeline :
  forall (T : Type) (NT : Num T) (stress distances rocks : Serie T) ss ds ts,
  repr stress 6 ss -> repr distances 1 (col ds) -> repr rocks 1 (col ts) ->
  length ss = length ds -> length ss = length ts -> 8 * len ss < 2 ^ 32 ->
  let kept := filter near_and_compressive (triples ss ds ts) in
  pipeline [6; 1; 1] stress distances rocks =
  Ok [mk 6 (map (fun x => fst (fst x)) kept) 3; mk 1 (col (map (fun x => snd (fst x)) kept)) 3; mk 1 (col (map snd kept)) 3].
Proof.
  intros T NT stress distances rocks ss ds ts Hs Hd Ht Ed Et Hm kept.
  destruct (pipeline_combined stress distances rocks ss ds ts [6; 1; 1] Hs Hd Ht Ed Et Hm) as [Hr ->]; fold kept in Hr |- *.
  rewrite (C37_unzip T NT _ 8 _ [6; 1; 1] Hr); [|discriminate|repeat constructor; lia|reflexivity].
  assert (H6 : forall x, In x kept -> length (fst (fst x)) = 6%nat).
  { intros [[s d] t] Hin; apply filter_In in Hin; destruct Hin as [Hin _].
    destruct Hs as (_ & _ & _ & H6 & _); pose proof (in_triples_row ss ds ts s d t H6 Hin); unfold len in *; cbn [fst]; lia. }
  unfold as_series; cbn [columns combine map fst snd]; unfold col; rewrite !map_map.
  do 2 f_equal; [|f_equal; [|f_equal]]; f_equal; apply map_ext_in; intros [[s d] t] Hin; specialize (H6 _ Hin); cbn [fst snd row8] in *;
    destruct s as [|a [|b [|c [|e [|f [|g [|h s]]]]]]]; try discriminate H6; reflexivity.
Qed.
Print Assumptions C138_pipeline.

(** the data of the program (main.cxx:37-59): points 3 and 4 are kept *)
Definition ex_stress : list (list F64) :=
  [[#1; #0; #0; #1; #0; #1]; [#2; #1; #0; #2; #0; #2]; [#(-1); #0; #0; #(-1); #0; #(-1)]; [#(-2); #(-1); #0; #(-2); #0; #(-2)]].
Example C138_ex :
  let n := F64N in
  map (fun x => show (snd x)) (filter near_and_compressive (triples ex_stress [#5; #2; #1; f64_div #1 #2] [#1; #1; #2; #2]))
    = map show [#2; #2] /\
  match pipeline [6; 1; 1] (mk 6 ex_stress 3) (mk 1 (col [#5; #2; #1; f64_div #1 #2]) 3) (mk 1 (col [#1; #1; #2; #2]) 3) with
  | Ok [a; b; c] => map show (s_ a) = map show (concat (skipn 2 ex_stress)) /\
      map show (s_ b) = map show [#1; f64_div #1 #2] /\ map show (s_ c) = map show [#2; #2]
  | _ => False
  end /\
  stress_state (mk 6 ex_stress 3) (mk 1 (col [#5; #2; #1; f64_div #1 #2]) 3) (mk 1 (col [#1; #1; #2; #2]) 3) = Throw InvalidArgument.
Proof. cbv zeta; split; [vm_compute; reflexivity|split; [vm_compute; split; [reflexivity|split; reflexivity]|vm_compute; reflexivity]]. Qed.

(** the rows of the program are Series in the sense of the theorems *)
Example C138_hyp :
  repr (mk 6 ex_stress 3) 6 ex_stress /\ repr (mk 1 (col [#5; #2; #1; f64_div #1 #2]) 3) 1 (col [#5; #2; #1; f64_div #1 #2]) /\
  repr (mk 1 (col [#1; #1; #2; #2]) 3) 1 (col [#1; #1; #2; #2]) /\ 8 * len ex_stress < 2 ^ 32.
Proof.
  split; [|split; [|split; [|unfold len; cbn [length ex_stress]; lia]]];
    (apply repr_mk; [repeat (apply Forall_cons; [reflexivity|]); apply Forall_nil|lia|unfold len; cbn [length ex_stress col map]; lia|unfold len; cbn [length ex_stress col map]; lia]).
Qed.
