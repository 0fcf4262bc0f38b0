(** * C14 - C25: item size checks, filter, reject, partition, find, findAll, forEach, reduce, check, pipe, compose. *)
From Verif Require Import Base Num Serie Spec BaseFacts SerieFacts Functional FunctionalFacts F64 Props_Functional.
From Coq Require Import Permutation.

Ltac Zify.zify_post_hook ::= Z.div_mod_to_equations.
Opaque f64_of_Z.
#[local] Existing Instance F64N.

(** ** C14 *)

(** the three functions that check: refused, no call *)
Theorem C14_refused_partial :
  forall (T : Type) (NT : Num T) (St : Type) (s : Serie T) (st : St),
  itemSize s > 1 ->
  (forall cb : T -> Z -> M St unit, forEach_s cb s st = (Throw InvalidArgument, st)) /\
  (forall cb : T -> Z -> M St bool, find_s cb s st = (Throw InvalidArgument, st)) /\
  (forall cb : T -> Z -> M St bool, partition_s cb s st = (Throw InvalidArgument, st)).
Proof.
  intros T NT St s st Hk; unfold forEach_s, find_s, partition_s.
  destruct (Z.eqb_spec (itemSize s) 1); [lia|]; repeat split.
Qed.
Print Assumptions C14_refused_partial.
(** and the other way round: forEach and find refuse a callback on Arrays for a Serie of numbers *)
Theorem C14_array_callback_refused :
  forall (T : Type) (NT : Num T) (St : Type) (s : Serie T) (st : St),
  itemSize s = 1 ->
  (forall cb : list T -> Z -> M St unit, forEach_v cb s st = (Throw InvalidArgument, st)) /\
  (forall cb : list T -> Z -> M St bool, find_v cb s st = (Throw InvalidArgument, st)).
Proof. intros T NT St s st Hk; unfold forEach_v, find_v; rewrite Hk; split; reflexivity. Qed.
Print Assumptions C14_array_callback_refused.

(** the other six do not check: they run the callback on the leading components of the storage *)
Theorem C14_scalar_callback_refused_refuted :
  exists (s : Serie F64), itemSize s = 2 /\ count s = 2 /\
  (exists r log, map_ss (logging (fun x _ => x)) s [] = (Ok r, log) /\ len log = 2) /\
  (exists r log, filter_s (logging (fun x _ => true)) s [] = (Ok r, log) /\ len log = 2) /\
  (exists r log, reject_s (logging (fun x _ => false)) s [] = (Ok r, log) /\ len log = 2) /\
  (exists r log, findAll_s (logging (fun x _ => true)) s [] = (Ok r, log) /\ len log = 2) /\
  (exists r log, check_s s (logging (fun x _ => true)) [] = (Ok r, log) /\ len log = 2) /\
  (exists r log, reduce_s (fun a => logging (fun x _ => a)) s #0 [] = (Ok r, log) /\ len log = 2).
Proof.
  exists (mk 2 [[#1; #2]; [#3; #4]] 3); split; [reflexivity|]; split; [reflexivity|].
  repeat split; eexists; eexists; (split; [reflexivity|reflexivity]).
Qed.
Print Assumptions C14_scalar_callback_refused_refuted.

(** what the unchecked functions compute instead, e.g. map: the components [0 .. count-1] *)
Theorem C14_map_on_vector_reads_components :
  forall (T : Type) (NT : Num T) (s : Serie T) k rows (f : T -> T) (st : unit),
  repr s k rows -> 1 <= k ->
  map_ss (fun x _ => ret (f x)) s st
  = (Ok (mk 1 (col (map f (firstn (length rows) (concat rows)))) 3), st).
Proof.
  intros T NT s k rows f st Hs Hk.
  pose proof Hs as (Hk1 & Hc & (lo & Hlo) & Hr & Hb & Hn & Hm).
  assert (Hlen : (length rows <= length (concat rows))%nat).
  { pose proof (len_concat k rows Hr) as E; unfold len in *; nia. }
  set (xs := firstn (length rows) (concat rows)).
  assert (Hx : length xs = length rows) by (unfold xs; rewrite firstn_length; lia).
  unfold map_ss; rewrite (repr_count _ _ _ Hs).
  replace (len rows) with (len xs) by (unfold len; congruence).
  apply map_num_ok.
  - intros j x Hj.
    assert (Hjl : (j < length xs)%nat) by (apply nth_error_Some; congruence).
    unfold get_double.
    destruct (Z.leb_spec (len (s_ s)) (Z.of_nat j)); [rewrite Hlo, len_app in *; unfold len in *; lia|].
    apply rd_nat; rewrite Hlo, nth_error_app1 by lia.
    unfold xs in Hj; rewrite <- (firstn_skipn (length rows) (concat rows)), nth_error_app1; [exact Hj|].
    fold xs; lia.
  - unfold len in *; lia.
  - apply calls_pure1.
Qed.
Print Assumptions C14_map_on_vector_reads_components.

(** ** C15 *)
Section C15.
  Context {T : Type} {NT : Num T} {St : Type}.
  Lemma filter_s_ok (cb : T -> Z -> M St bool) s xs st bs st' :
    repr s 1 (col xs) -> calls cb (enum xs) st bs st' ->
    filter_s cb s st = (Ok (mk 1 (col (select xs bs)) 3), st').
  Proof.
    intros Hs Hc; unfold filter_s; destruct (repr_col_len s xs Hs) as [-> Hl].
    rewrite (mbind_ok _ _ _ _ _ (collect_ok _ cb true xs st bs st' (reads_scalar s xs Hs) Hc)).
    rewrite eqb_true_map; unfold lift; rewrite (take_s_select s xs bs Hs); reflexivity.
  Qed.
  Lemma filter_v_ok (cb : list T -> Z -> M St bool) s k rows st bs st' :
    repr s k rows -> calls cb (enum rows) st bs st' ->
    filter_v cb s st = (Ok (mk k (select rows bs) 3), st').
  Proof.
    intros Hs Hc; unfold filter_v; rewrite (repr_count s k rows Hs).
    rewrite (mbind_ok _ _ _ _ _ (collect_ok _ cb true rows st bs st' (reads_array s k rows Hs) Hc)).
    rewrite eqb_true_map; unfold lift; rewrite (take_v_select s k rows bs Hs); reflexivity.
  Qed.
  Lemma reject_s_ok (cb : T -> Z -> M St bool) s xs st bs st' :
    repr s 1 (col xs) -> calls cb (enum xs) st bs st' ->
    reject_s cb s st = (Ok (mk 1 (col (select xs (map negb bs))) 3), st').
  Proof.
    intros Hs Hc; unfold reject_s; destruct (repr_col_len s xs Hs) as [-> Hl].
    rewrite (mbind_ok _ _ _ _ _ (collect_ok _ cb false xs st bs st' (reads_scalar s xs Hs) Hc)).
    rewrite eqb_false_map; unfold lift; rewrite (take_s_select s xs (map negb bs) Hs); reflexivity.
  Qed.
  Lemma reject_v_ok (cb : list T -> Z -> M St bool) s k rows st bs st' :
    repr s k rows -> calls cb (enum rows) st bs st' ->
    reject_v cb s st = (Ok (mk k (select rows (map negb bs)) 3), st').
  Proof.
    intros Hs Hc; unfold reject_v; rewrite (repr_count s k rows Hs).
    rewrite (mbind_ok _ _ _ _ _ (collect_ok _ cb false rows st bs st' (reads_array s k rows Hs) Hc)).
    rewrite eqb_false_map; unfold lift; rewrite (take_v_select s k rows (map negb bs) Hs); reflexivity.
  Qed.
End C15.

(** the predicate's answers [bs], however they come about, decide which items are kept *)
Theorem C15_filter :
  forall (T : Type) (NT : Num T) (St : Type) (s : Serie T) (st : St) (bs : list bool) (st' : St),
  (forall (cb : T -> Z -> M St bool) xs,
     repr s 1 (col xs) -> calls cb (enum xs) st bs st' ->
     filter_s cb s st = (Ok (mk 1 (col (select xs bs)) 3), st')) /\
  (forall (cb : list T -> Z -> M St bool) k rows,
     repr s k rows -> calls cb (enum rows) st bs st' ->
     filter_v cb s st = (Ok (mk k (select rows bs) 3), st')).
Proof.
  intros; split; intros; [apply filter_s_ok|eapply filter_v_ok]; eauto.
Qed.
Print Assumptions C15_filter.

(** with a pure predicate the items are those of the standard list filter over (item, index) *)
Theorem C15_filter_pure :
  forall (T : Type) (NT : Num T) (s : Serie T),
  (forall xs (p : T -> Z -> bool), repr s 1 (col xs) ->
     run (filter_s (fun x i => ret (p x i)) s)
     = Ok (mk 1 (col (map fst (filter (fun xi => p (fst xi) (snd xi)) (enum xs)))) 3)) /\
  (forall k rows (p : list T -> Z -> bool), repr s k rows ->
     run (filter_v (fun x i => ret (p x i)) s)
     = Ok (mk k (map fst (filter (fun xi => p (fst xi) (snd xi)) (enum rows))) 3)).
Proof.
  intros T NT s; split; intros; unfold run.
  - rewrite (filter_s_ok _ s xs tt _ tt H (calls_pure p (enum xs) tt)).
    rewrite select_enum, (select_filter (fun xi => p (fst xi) (snd xi))); reflexivity.
  - rewrite (filter_v_ok _ s k rows tt _ tt H (calls_pure p (enum rows) tt)).
    rewrite select_enum, (select_filter (fun xi => p (fst xi) (snd xi))); reflexivity.
Qed.
Print Assumptions C15_filter_pure.

Example C15_witness :
  let s := mk 2 [[#1; #2]; [#3; #4]; [#5; #6]] 3 in
  repr s 2 [[#1; #2]; [#3; #4]; [#5; #6]] /\
  run (filter_v (fun _ i => ret (negb (i =? 1))) s) = Ok (mk 2 [[#1; #2]; [#5; #6]] 3).
Proof. split; [repr_ex|reflexivity]. Qed.

(** ** C16 *)
Section C16.
  Context {T : Type} {NT : Num T} {St : Type}.
  Lemma select_filter_enum {A} (p : A -> bool) (rows : list A) : select rows (map p rows) = filter p rows.
  Proof. apply select_filter. Qed.
  Lemma filter_v_pure (s : Serie T) k rows p (st : St) :
    repr s k rows -> filter_v (fun r _ => ret (p r)) s st = (Ok (mk k (filter p rows) 3), st).
  Proof.
    intros Hs; rewrite <- select_filter_enum; eapply filter_v_ok; [exact Hs|apply calls_pure1].
  Qed.
  Lemma filter_s_pure (s : Serie T) xs p (st : St) :
    repr s 1 (col xs) -> filter_s (fun r _ => ret (p r)) s st = (Ok (mk 1 (col (filter p xs)) 3), st).
  Proof.
    intros Hs; rewrite <- select_filter_enum; eapply filter_s_ok; [exact Hs|apply calls_pure1].
  Qed.
  Lemma filter_length_le' {A} (p : A -> bool) l : (length (filter p l) <= length l)%nat.
  Proof. induction l as [|x l IH]; simpl; [lia|]; destruct (p x); simpl; lia. Qed.
  Lemma repr_filter (s : Serie T) k rows p :
    repr s k rows -> repr (mk k (filter p rows) 3) k (filter p rows).
  Proof.
    intros (_ & _ & _ & Hr & Hk & Hn & Hm).
    pose proof (filter_length_le' p rows); unfold len in *.
    apply repr_mk; auto; unfold len; try nia.
    rewrite <- select_filter; apply select_rows; exact Hr.
  Qed.
  Lemma filter_filter {A} (p q : A -> bool) l : filter q (filter p l) = filter (fun x => p x && q x) l.
  Proof.
    induction l as [|x l IH]; simpl; [reflexivity|]; destruct (p x); simpl; [destruct (q x)|]; rewrite ?IH; reflexivity.
  Qed.
  Lemma filter_const_false {A} (l : list A) : filter (fun _ => false) l = [].
  Proof. induction l; auto. Qed.
  Lemma filter_const_true {A} (l : list A) : filter (fun _ => true) l = l.
  Proof. induction l as [|x l IH]; simpl; [reflexivity|rewrite IH; reflexivity]. Qed.
End C16.

Theorem C16_filter_laws :
  forall (T : Type) (NT : Num T) (St : Type) (st : St) (s : Serie T) k rows (p q : list T -> bool),
  repr s k rows ->
  let filt p s := filter_v (fun r _ => ret (p r)) s st in
  exists rp rq rpq, filt p s = (Ok rp, st) /\ filt q s = (Ok rq, st) /\
    filt (fun r => p r && q r) s = (Ok rpq, st) /\
    filt p rp = (Ok rp, st) /\ filt q rp = (Ok rpq, st) /\ filt p rq = (Ok rpq, st) /\
    (exists rt, filt (fun _ => true) s = (Ok rt, st) /\ repr rt k rows) /\
    (exists re, filt (fun _ => false) s = (Ok re, st) /\ count re = 0 /\ itemSize re = k).
Proof.
  intros T NT St st s k rows p q Hs filt; unfold filt.
  exists (mk k (filter p rows) 3), (mk k (filter q rows) 3), (mk k (filter (fun r => p r && q r) rows) 3).
  pose proof (repr_filter s k rows p Hs) as Hp; pose proof (repr_filter s k rows q Hs) as Hq.
  rewrite !(filter_v_pure s k rows) by exact Hs.
  rewrite !(filter_v_pure _ k _ _ st Hp), (filter_v_pure _ k _ _ st Hq), !filter_filter.
  split; [reflexivity|]; split; [reflexivity|]; split; [reflexivity|].
  split; [|split; [reflexivity|split; [|split]]].
  - rewrite (filter_ext (fun x => p x && p x) p) by (intros x; destruct (p x); reflexivity); reflexivity.
  - rewrite (filter_ext (fun x => q x && p x) (fun x => p x && q x)) by (intros x; apply andb_comm); reflexivity.
  - exists (mk k rows 3); rewrite filter_const_true; split; [reflexivity|].
    pose proof (repr_filter s k rows (fun _ => true) Hs) as Ht; rewrite filter_const_true in Ht; exact Ht.
  - exists (mk k [] 3); rewrite filter_const_false; split; [reflexivity|]; split; [reflexivity|].
    pose proof (repr_filter s k rows (fun _ => false) Hs) as Ht; rewrite filter_const_false in Ht.
    exact (repr_itemSize _ _ _ Ht).
Qed.
Print Assumptions C16_filter_laws.

Theorem C16_filter_laws_numbers :
  forall (T : Type) (NT : Num T) (St : Type) (st : St) (s : Serie T) xs (p q : T -> bool),
  repr s 1 (col xs) ->
  let filt p s := filter_s (fun r _ => ret (p r)) s st in
  exists rp rq rpq, filt p s = (Ok rp, st) /\ filt q s = (Ok rq, st) /\
    filt (fun r => p r && q r) s = (Ok rpq, st) /\
    filt p rp = (Ok rp, st) /\ filt q rp = (Ok rpq, st) /\ filt p rq = (Ok rpq, st) /\
    (exists rt, filt (fun _ => true) s = (Ok rt, st) /\ repr rt 1 (col xs)) /\
    (exists re, filt (fun _ => false) s = (Ok re, st) /\ count re = 0 /\ itemSize re = 1).
Proof.
  intros T NT St st s xs p q Hs filt; unfold filt.
  assert (R : forall p, repr (mk 1 (col (filter p xs)) 3) 1 (col (filter p xs))).
  { intros f; destruct (repr_col_len s xs Hs) as [_ Hl]; apply repr_col_mk.
    pose proof (filter_length_le' f xs); unfold len in *; lia. }
  exists (mk 1 (col (filter p xs)) 3), (mk 1 (col (filter q xs)) 3), (mk 1 (col (filter (fun r => p r && q r) xs)) 3).
  rewrite !(filter_s_pure s xs) by exact Hs.
  rewrite !(filter_s_pure _ _ _ st (R p)), (filter_s_pure _ _ _ st (R q)), !filter_filter.
  split; [reflexivity|]; split; [reflexivity|]; split; [reflexivity|].
  split; [|split; [reflexivity|split; [|split]]].
  - rewrite (filter_ext (fun x => p x && p x) p) by (intros x; destruct (p x); reflexivity); reflexivity.
  - rewrite (filter_ext (fun x => q x && p x) (fun x => p x && q x)) by (intros x; apply andb_comm); reflexivity.
  - exists (mk 1 (col xs) 3); rewrite filter_const_true; split; [reflexivity|].
    pose proof (R (fun _ => true)) as Ht; rewrite filter_const_true in Ht; exact Ht.
  - exists (mk 1 [] 3); rewrite filter_const_false; split; [reflexivity|]; split; reflexivity.
Qed.
Print Assumptions C16_filter_laws_numbers.

Example C16_witness :
  repr (mk 2 [[#1; #2]; [#3; #4]; [#5; #6]] 3) 2 [[#1; #2]; [#3; #4]; [#5; #6]].
Proof. repr_ex. Qed.

(** ** C17 *)
Theorem C17_filter_reject_complement :
  forall (T : Type) (NT : Num T) (St : Type) (s : Serie T) (st : St) (bs : list bool) (st' : St),
  (forall (cb : T -> Z -> M St bool) xs,
     repr s 1 (col xs) -> calls cb (enum xs) st bs st' ->
     exists kept dropped,
       filter_s cb s st = (Ok (mk 1 (col kept) 3), st') /\
       reject_s cb s st = (Ok (mk 1 (col dropped) 3), st') /\
       Permutation xs (kept ++ dropped) /\ len kept + len dropped = len xs) /\
  (forall (cb : list T -> Z -> M St bool) k rows,
     repr s k rows -> calls cb (enum rows) st bs st' ->
     exists kept dropped,
       filter_v cb s st = (Ok (mk k kept 3), st') /\
       reject_v cb s st = (Ok (mk k dropped 3), st') /\
       Permutation rows (kept ++ dropped) /\ len kept + len dropped = len rows).
Proof.
  intros T NT St s st bs st'; split.
  - intros cb xs Hs Hc.
    assert (Hlen : length bs = length xs).
    { rewrite (calls_length _ _ _ _ _ Hc); unfold enum; apply enum_from_length. }
    pose proof (select_perm xs bs Hlen) as P.
    exists (select xs bs), (select xs (map negb bs)).
    split; [apply filter_s_ok; auto|]; split; [apply reject_s_ok; auto|]; split; [exact P|].
    rewrite <- len_app; unfold len; rewrite (Permutation_length P); reflexivity.
  - intros cb k rows Hs Hc.
    assert (Hlen : length bs = length rows).
    { rewrite (calls_length _ _ _ _ _ Hc); unfold enum; apply enum_from_length. }
    pose proof (select_perm rows bs Hlen) as P.
    exists (select rows bs), (select rows (map negb bs)).
    split; [eapply filter_v_ok; eauto|]; split; [eapply reject_v_ok; eauto|]; split; [exact P|].
    rewrite <- len_app; unfold len; rewrite (Permutation_length P); reflexivity.
Qed.
Print Assumptions C17_filter_reject_complement.

(** rejecting with [p] is filtering with [not p], whatever the predicate does (on any Serie) *)
Lemma collect_negb {A St} (get : Z -> outcome A) (cb : A -> Z -> M St bool) n st :
  collect get cb false n st = collect get (fun x i => let! b := cb x i in ret (negb b)) true n st.
Proof.
  unfold collect.
  assert (G : forall l acc0 st,
    foldM (fun indices i => let! x := lift (get i) in let! b := cb x i in
             ret (if Bool.eqb b false then indices ++ [i] else indices)) l acc0 st
    = foldM (fun indices i => let! x := lift (get i) in
             let! b := (let! b := cb x i in ret (negb b)) in
             ret (if Bool.eqb b true then indices ++ [i] else indices)) l acc0 st); [|apply G].
  clear st; induction l as [|i l IH]; intros acc st; [reflexivity|].
  simpl; apply mbind_cong; [|intros a st1; apply IH].
  apply mbind_cong; [reflexivity|]; intros x st1.
  rewrite mbind_assoc; apply mbind_cong; [reflexivity|]; intros b st2.
  unfold mbind, ret; destruct b; reflexivity.
Qed.

Theorem C17_reject_is_filter_not :
  forall (T : Type) (NT : Num T) (St : Type) (s : Serie T) (st : St),
  (forall cb : T -> Z -> M St bool,
     reject_s cb s st = filter_s (fun x i => let! b := cb x i in ret (negb b)) s st) /\
  (forall cb : list T -> Z -> M St bool,
     reject_v cb s st = filter_v (fun x i => let! b := cb x i in ret (negb b)) s st).
Proof.
  intros T NT St s st; split; intros cb; unfold reject_s, filter_s, reject_v, filter_v;
    (apply mbind_cong; [apply collect_negb|reflexivity]).
Qed.
Print Assumptions C17_reject_is_filter_not.

Example C17_witness :
  let s := mk 1 (col [#1; #2; #3]) 3 in
  repr s 1 (col [#1; #2; #3]) /\
  run (reject_s (fun _ i => ret (i =? 1)) s) = Ok (mk 1 (col [#1; #3]) 3).
Proof. split; [repr_ex|reflexivity]. Qed.

(** ** C18 *)
Section C18.
  Context {T : Type} {NT : Num T} {St : Type}.
  Lemma multi_reads (ss : list (Serie T)) kts n :
    reprs ss kts -> same_count n kts -> ss <> [] ->
    countAndCheck ss = Ok n /\ reads (get_all ss) (tuples (Z.to_nat n) (map snd kts)).
  Proof.
    intros Hr Hc Hne; pose proof (reprs_bound ss kts n Hr Hc Hne).
    split; [eapply countAndCheck_ok; eauto|].
    apply reads_all; [exact Hr|rewrite Z2Nat.id by lia; exact Hc].
  Qed.
  Lemma collect_multi (cb : list (list T) -> Z -> M St bool) w ss kts n st bs st' :
    reprs ss kts -> same_count n kts -> ss <> [] ->
    calls cb (enum (tuples (Z.to_nat n) (map snd kts))) st bs st' ->
    (let! n := lift (countAndCheck ss) in
     let! indices := collect (get_all ss) cb w n in
     lift (mapO (fun s => take_v s indices) ss)) st
    = (Ok (map (fun kt => mk (fst kt) (select (snd kt) (map (fun b => Bool.eqb b w) bs)) 3) kts), st').
  Proof.
    intros Hr Hc Hne Hcalls; pose proof (reprs_bound ss kts n Hr Hc Hne) as Hb.
    destruct (multi_reads ss kts n Hr Hc Hne) as [Hcc Hg].
    rewrite (mbind_ok _ _ st n st) by (unfold lift; rewrite Hcc; reflexivity).
    rewrite <- (tuples_len_Z n (map snd kts)) at 1 by lia.
    rewrite (mbind_ok _ _ _ _ _ (collect_ok _ cb w _ st bs st' Hg Hcalls)).
    unfold lift; unfold enum; change 0 with (Z.of_nat 0); rewrite map_snd_enum, tuples_len.
    rewrite (take_all_select ss kts (Z.to_nat n)); [reflexivity|exact Hr|rewrite Z2Nat.id by lia; exact Hc].
  Qed.
End C18.

(** one selection [bs], applied to the rows of every Serie *)
Theorem C18_multi_filter_aligned :
  forall (T : Type) (NT : Num T) (St : Type) (ss : list (Serie T)) kts n (st st' : St) bs,
  ss <> [] -> reprs ss kts -> same_count n kts ->
  (forall cb : list (list T) -> Z -> M St bool,
     calls cb (enum (tuples (Z.to_nat n) (map snd kts))) st bs st' ->
     filter_n cb ss st = (Ok (map (fun kt => mk (fst kt) (select (snd kt) bs) 3) kts), st') /\
     reject_n cb ss st = (Ok (map (fun kt => mk (fst kt) (select (snd kt) (map negb bs)) 3) kts), st')) /\
  (forall cb : list (list T) -> M St bool,
     calls (fun x _ => cb x) (enum (tuples (Z.to_nat n) (map snd kts))) st bs st' ->
     filterAll cb ss st = (Ok (map (fun kt => mk (fst kt) (select (snd kt) bs) 3) kts), st') /\
     rejectAll cb ss st = (Ok (map (fun kt => mk (fst kt) (select (snd kt) (map negb bs)) 3) kts), st')).
Proof.
  intros T NT St ss kts n st st' bs Hne Hr Hc; split; intros cb Hcalls.
  - unfold filter_n, reject_n; rewrite !(collect_multi cb _ ss kts n st bs st' Hr Hc Hne Hcalls).
    rewrite eqb_true_map, eqb_false_map; split; reflexivity.
  - unfold filterAll, rejectAll; rewrite !(collect_multi _ _ ss kts n st bs st' Hr Hc Hne Hcalls).
    rewrite eqb_true_map, eqb_false_map; split; reflexivity.
Qed.
Print Assumptions C18_multi_filter_aligned.

(** hence row j of every output comes from one input index, the j-th selected one *)
Theorem C18_common_index :
  forall (T : Type) (n : Z) (kts : list (Z * list (list T))) (bs : list bool),
  same_count n kts -> length bs = Z.to_nat n ->
  let idx := select (seq 0 (Z.to_nat n)) bs in
  Forall (fun kt => select (snd kt) bs = map (fun i => nth i (snd kt) []) idx) kts.
Proof.
  intros T n kts bs Hc Hb idx; unfold idx; clear idx.
  apply Forall_forall; intros kt Hin.
  pose proof (proj1 (Forall_forall _ _) Hc kt Hin) as Hl; cbv beta in Hl.
  assert (El : Z.to_nat n = length (snd kt)) by (unfold len in Hl; lia).
  rewrite El; rewrite <- select_map; f_equal; clear.
  induction (snd kt) as [|r rows IH]; [reflexivity|].
  simpl; f_equal; rewrite <- seq_shift, map_map; exact IH.
Qed.
Print Assumptions C18_common_index.

Theorem C18_multi_filter_refused :
  forall (T : Type) (NT : Num T) (St : Type) (ss : list (Serie T)) s1 s2 (st : St),
  In s1 ss -> In s2 ss -> count s1 <> count s2 ->
  (forall cb, filter_n cb ss st = (Throw InvalidArgument, st) /\ reject_n cb ss st = (Throw InvalidArgument, st)) /\
  (forall cb, filterAll cb ss st = (Throw InvalidArgument, st) /\ rejectAll cb ss st = (Throw InvalidArgument, st)).
Proof.
  intros T NT St ss s1 s2 st H1 H2 Hne; pose proof (countAndCheck_throw ss s1 s2 H1 H2 Hne) as E.
  split; intros cb; split; unfold filter_n, reject_n, filterAll, rejectAll;
    unfold mbind at 1, lift at 1; rewrite E; reflexivity.
Qed.
Print Assumptions C18_multi_filter_refused.

Example C18_witness :
  let s1 := mk 1 (col [#1; #2; #3]) 3 in
  let s2 := mk 2 [[#1; #1]; [#2; #2]; [#3; #3]] 3 in
  let kts := [(1, col [#1; #2; #3]); (2, [[#1; #1]; [#2; #2]; [#3; #3]])] in
  reprs [s1; s2] kts /\ same_count 3 kts /\
  run (filter_n (fun _ i => ret (negb (i =? 1))) [s1; s2])
  = Ok [mk 1 (col [#1; #3]) 3; mk 2 [[#1; #1]; [#3; #3]] 3].
Proof. split; [constructor; [repr_ex|constructor; [repr_ex|constructor]]|]; split; [repeat constructor|reflexivity]. Qed.

(** ** C19 *)
Theorem C19_partition :
  forall (T : Type) (NT : Num T) (St : Type) (s : Serie T) (st : St) (bs : list bool) (st' : St),
  (forall (cb : T -> Z -> M St bool) xs,
     repr s 1 (col xs) -> calls cb (enum xs) st bs st' ->
     exists matched unmatched,
       partition_s cb s st = (Ok (matched, unmatched), st') /\
       filter_s cb s st = (Ok matched, st') /\ reject_s cb s st = (Ok unmatched, st') /\
       matched = mk 1 (col (select xs bs)) 3 /\ unmatched = mk 1 (col (select xs (map negb bs))) 3) /\
  (forall (cb : list T -> Z -> M St bool) k rows,
     repr s k rows -> calls cb (enum rows) st bs st' ->
     exists matched unmatched,
       partition_v cb s st = (Ok (matched, unmatched), st') /\
       filter_v cb s st = (Ok matched, st') /\ reject_v cb s st = (Ok unmatched, st') /\
       matched = mk k (select rows bs) 3 /\ unmatched = mk k (select rows (map negb bs)) 3).
Proof.
  intros T NT St s st bs st'; split.
  - intros cb xs Hs Hc.
    eexists; eexists; split; [|split; [apply filter_s_ok; eauto|split; [apply reject_s_ok; eauto|split; reflexivity]]].
    unfold partition_s; rewrite (repr_itemSize _ _ _ Hs); simpl; destruct (repr_col_len s xs Hs) as [-> Hl].
    rewrite (mbind_ok _ _ _ _ _ (collect2_ok _ cb xs st bs st' (reads_scalar s xs Hs) Hc)); cbn [fst snd].
    rewrite !take_s_select by exact Hs; reflexivity.
  - intros cb k rows Hs Hc.
    eexists; eexists; split; [|split; [eapply filter_v_ok; eauto|split; [eapply reject_v_ok; eauto|split; reflexivity]]].
    unfold partition_v; rewrite (repr_count s k rows Hs).
    rewrite (mbind_ok _ _ _ _ _ (collect2_ok _ cb rows st bs st' (reads_array s k rows Hs) Hc)); cbn [fst snd].
    rewrite !(take_v_select s k rows) by exact Hs; reflexivity.
Qed.
Print Assumptions C19_partition.

(** a predicate with memory: true on every other call *)
Example C19_witness :
  let s := mk 1 (col [#1; #2; #3]) 3 in
  let p := fun (_ : F64) (_ : Z) (b : bool) => (Ok b, negb b) in
  repr s 1 (col [#1; #2; #3]) /\
  calls p (enum [#1; #2; #3]) true [true; false; true] false /\
  partition_s p s true = (Ok (mk 1 (col [#1; #3]) 3, mk 1 (col [#2]) 3), false).
Proof. split; [repr_ex|]; split; [|reflexivity]; repeat (econstructor; try reflexivity). Qed.

(** ** C20 *)
(** a match at [x] (index i) after a prefix without match: no later call is made *)
Theorem C20_find_first :
  forall (T : Type) (NT : Num T) (St : Type) (s : Serie T) (st : St) bs st1 st2,
  Forall (fun b => b = false) bs ->
  (forall (cb : T -> Z -> M St bool) xs pre x i post,
     repr s 1 (col xs) -> enum xs = pre ++ (x, i) :: post ->
     calls cb pre st bs st1 -> cb x i st1 = (Ok true, st2) ->
     find_s cb s st = (Ok (mkFind x i true), st2)) /\
  (forall (cb : list T -> Z -> M St bool) k rows pre x i post,
     repr s k rows -> k <> 1 -> enum rows = pre ++ (x, i) :: post ->
     calls cb pre st bs st1 -> cb x i st1 = (Ok true, st2) ->
     find_v cb s st = (Ok (mkFind x i true), st2)).
Proof.
  intros T NT St s st bs st1 st2 Hf; split.
  - intros cb xs pre x i post Hs E Hc Hx.
    unfold find_s; rewrite (repr_itemSize _ _ _ Hs); simpl; destruct (repr_col_len s xs Hs) as [-> Hl].
    rewrite iota_len, (find_loop_index (get_double s) cb n0 xs 0 (reads_scalar s xs Hs) pre x i post st bs st1 E Hc Hf).
    unfold mbind; rewrite Hx; reflexivity.
  - intros cb k rows pre x i post Hs Hk E Hc Hx.
    unfold find_v; rewrite (repr_itemSize _ _ _ Hs); destruct (Z.eqb_spec k 1); [congruence|].
    rewrite (repr_count _ _ _ Hs), iota_len.
    rewrite (find_loop_index (get_array s) cb [] rows 0 (reads_array s k rows Hs) pre x i post st bs st1 E Hc Hf).
    unfold mbind; rewrite Hx; reflexivity.
Qed.
Print Assumptions C20_find_first.

Theorem C20_find_none :
  forall (T : Type) (NT : Num T) (St : Type) (s : Serie T) (st : St) bs st1,
  Forall (fun b => b = false) bs ->
  (forall (cb : T -> Z -> M St bool) xs,
     repr s 1 (col xs) -> calls cb (enum xs) st bs st1 ->
     exists r, find_s cb s st = (Ok r, st1) /\ fr_found r = false) /\
  (forall (cb : list T -> Z -> M St bool) k rows,
     repr s k rows -> k <> 1 -> calls cb (enum rows) st bs st1 ->
     exists r, find_v cb s st = (Ok r, st1) /\ fr_found r = false).
Proof.
  intros T NT St s st bs st1 Hf; split.
  - intros cb xs Hs Hc; exists (mkFind n0 0 false); split; [|reflexivity].
    unfold find_s; rewrite (repr_itemSize _ _ _ Hs); simpl; destruct (repr_col_len s xs Hs) as [-> Hl].
    rewrite iota_len; apply (find_loop_none (get_double s) cb n0 xs 0 (reads_scalar s xs Hs) st bs st1 Hc Hf).
  - intros cb k rows Hs Hk Hc; exists (mkFind [] 0 false); split; [|reflexivity].
    unfold find_v; rewrite (repr_itemSize _ _ _ Hs); destruct (Z.eqb_spec k 1); [congruence|].
    rewrite (repr_count _ _ _ Hs), iota_len.
    apply (find_loop_none (get_array s) cb [] rows 0 (reads_array s k rows Hs) st bs st1 Hc Hf).
Qed.
Print Assumptions C20_find_none.

(** an exception of the predicate before any match ends the search *)
Theorem C20_find_throw :
  forall (T : Type) (NT : Num T) (St : Type) (s : Serie T) (st : St) bs st1 e st2,
  Forall (fun b => b = false) bs ->
  (forall (cb : T -> Z -> M St bool) xs pre x i post,
     repr s 1 (col xs) -> enum xs = pre ++ (x, i) :: post ->
     calls cb pre st bs st1 -> cb x i st1 = (Throw e, st2) ->
     find_s cb s st = (Throw e, st2)) /\
  (forall (cb : list T -> Z -> M St bool) k rows pre x i post,
     repr s k rows -> k <> 1 -> enum rows = pre ++ (x, i) :: post ->
     calls cb pre st bs st1 -> cb x i st1 = (Throw e, st2) ->
     find_v cb s st = (Throw e, st2)).
Proof.
  intros T NT St s st bs st1 e st2 Hf; split.
  - intros cb xs pre x i post Hs E Hc Hx.
    unfold find_s; rewrite (repr_itemSize _ _ _ Hs); simpl; destruct (repr_col_len s xs Hs) as [-> Hl].
    rewrite iota_len, (find_loop_index (get_double s) cb n0 xs 0 (reads_scalar s xs Hs) pre x i post st bs st1 E Hc Hf).
    unfold mbind; rewrite Hx; reflexivity.
  - intros cb k rows pre x i post Hs Hk E Hc Hx.
    unfold find_v; rewrite (repr_itemSize _ _ _ Hs); destruct (Z.eqb_spec k 1); [congruence|].
    rewrite (repr_count _ _ _ Hs), iota_len.
    rewrite (find_loop_index (get_array s) cb [] rows 0 (reads_array s k rows Hs) pre x i post st bs st1 E Hc Hf).
    unfold mbind; rewrite Hx; reflexivity.
Qed.
Print Assumptions C20_find_throw.

(** pure predicates: found exactly when some item satisfies, and then the least index *)
Theorem C20_find_pure :
  forall (T : Type) (NT : Num T) (s : Serie T) xs (p : T -> Z -> bool),
  repr s 1 (col xs) ->
  exists r, run (find_s (fun x i => ret (p x i)) s) = Ok r /\
    (fr_found r = true -> exists j, fr_index r = Z.of_nat j /\ nth_error xs j = Some (fr_value r) /\
       p (fr_value r) (Z.of_nat j) = true /\
       forall j' x, (j' < j)%nat -> nth_error xs j' = Some x -> p x (Z.of_nat j') = false) /\
    (fr_found r = false -> forall j x, nth_error xs j = Some x -> p x (Z.of_nat j) = false).
Proof.
  intros T NT s xs p Hs.
  assert (D : forall (l : list (T * Z)),
    (Forall (fun q => p (fst q) (snd q) = false) l) \/
    (exists pre x i post, l = pre ++ (x, i) :: post /\ p x i = true /\ Forall (fun q => p (fst q) (snd q) = false) pre)).
  { induction l as [|[x i] l [IH|(pre & y & j & post & -> & Hp & Hpre)]].
    - left; constructor.
    - destruct (p x i) eqn:E; [right; exists [], x, i, l; auto|left; constructor; auto].
    - destruct (p x i) eqn:E.
      + right; exists [], x, i, (pre ++ (y, j) :: post); auto.
      + right; exists ((x, i) :: pre), y, j, post; split; [reflexivity|]; split; auto. }
  assert (Fb : forall l : list (T * Z), Forall (fun q => p (fst q) (snd q) = false) l ->
             Forall (fun b => b = false) (map (fun q => p (fst q) (snd q)) l)).
  { intros l Hl; apply Forall_map; exact Hl. }
  destruct (D (enum xs)) as [Hall|(pre & x & i & post & E & Hp & Hpre)].
  - destruct (C20_find_none T NT unit s tt _ tt (Fb _ Hall)) as [M _].
    destruct (M _ xs Hs (calls_pure p (enum xs) tt)) as (r & Er & Hfr).
    exists r; unfold run; rewrite Er; split; [reflexivity|]; split; [congruence|].
    intros _ j x Hj; pose proof (nth_error_enum xs 0 j x Hj) as He.
    apply nth_error_In in He; rewrite Forall_forall in Hall; specialize (Hall _ He); simpl in Hall.
    exact Hall.
  - destruct (C20_find_first T NT unit s tt _ tt tt (Fb _ Hpre)) as [M _].
    exists (mkFind x i true); unfold run.
    rewrite (M (fun x i => ret (p x i)) xs pre x i post Hs E (calls_pure p pre tt)) by (rewrite Hp; reflexivity).
    split; [reflexivity|]; split; [intros _; simpl|discriminate].
    assert (Hn : nth_error (enum xs) (length pre) = Some (x, i)).
    { rewrite E, nth_error_app2, Nat.sub_diag by lia; reflexivity. }
    assert (Hlt : (length pre < length xs)%nat).
    { rewrite <- (enum_from_length 0 xs); apply nth_error_Some; unfold enum in Hn; congruence. }
    destruct (nth_error xs (length pre)) as [x'|] eqn:Ex; [|apply nth_error_None in Ex; lia].
    pose proof (nth_error_enum xs 0 _ _ Ex) as Hn'; unfold enum in Hn; rewrite Hn in Hn'.
    injection Hn' as -> ->; exists (length pre); split; [lia|]; split; [exact Ex|]; split.
    { replace (Z.of_nat (length pre)) with (0 + Z.of_nat (length pre)) by lia; exact Hp. }
    intros j' y Hj' Hy; pose proof (nth_error_enum xs 0 j' y Hy) as He.
    change (enum_from 0 xs) with (enum xs) in He; rewrite E, nth_error_app1 in He by lia.
    apply nth_error_In in He; rewrite Forall_forall in Hpre; exact (Hpre _ He).
Qed.
Print Assumptions C20_find_pure.

Theorem C20_find_pure_arrays :
  forall (T : Type) (NT : Num T) (s : Serie T) k xs (p : list T -> Z -> bool),
  repr s k xs -> k <> 1 ->
  exists r, run (find_v (fun x i => ret (p x i)) s) = Ok r /\
    (fr_found r = true -> exists j, fr_index r = Z.of_nat j /\ nth_error xs j = Some (fr_value r) /\
       p (fr_value r) (Z.of_nat j) = true /\
       forall j' x, (j' < j)%nat -> nth_error xs j' = Some x -> p x (Z.of_nat j') = false) /\
    (fr_found r = false -> forall j x, nth_error xs j = Some x -> p x (Z.of_nat j) = false).
Proof.
  intros T NT s k xs p Hs Hk.
  assert (D : forall (l : list (list T * Z)),
    (Forall (fun q => p (fst q) (snd q) = false) l) \/
    (exists pre x i post, l = pre ++ (x, i) :: post /\ p x i = true /\ Forall (fun q => p (fst q) (snd q) = false) pre)).
  { induction l as [|[x i] l [IH|(pre & y & j & post & -> & Hp & Hpre)]].
    - left; constructor.
    - destruct (p x i) eqn:E; [right; exists [], x, i, l; auto|left; constructor; auto].
    - destruct (p x i) eqn:E.
      + right; exists [], x, i, (pre ++ (y, j) :: post); auto.
      + right; exists ((x, i) :: pre), y, j, post; split; [reflexivity|]; split; auto. }
  assert (Fb : forall l : list (list T * Z), Forall (fun q => p (fst q) (snd q) = false) l ->
             Forall (fun b => b = false) (map (fun q => p (fst q) (snd q)) l)).
  { intros l Hl; apply Forall_map; exact Hl. }
  destruct (D (enum xs)) as [Hall|(pre & x & i & post & E & Hp & Hpre)].
  - destruct (C20_find_none T NT unit s tt _ tt (Fb _ Hall)) as [_ M].
    destruct (M _ k xs Hs Hk (calls_pure p (enum xs) tt)) as (r & Er & Hfr).
    exists r; unfold run; rewrite Er; split; [reflexivity|]; split; [congruence|].
    intros _ j x Hj; pose proof (nth_error_enum xs 0 j x Hj) as He.
    apply nth_error_In in He; rewrite Forall_forall in Hall; specialize (Hall _ He); simpl in Hall.
    exact Hall.
  - destruct (C20_find_first T NT unit s tt _ tt tt (Fb _ Hpre)) as [_ M].
    exists (mkFind x i true); unfold run.
    rewrite (M (fun x i => ret (p x i)) k xs pre x i post Hs Hk E (calls_pure p pre tt)) by (rewrite Hp; reflexivity).
    split; [reflexivity|]; split; [intros _; simpl|discriminate].
    assert (Hn : nth_error (enum xs) (length pre) = Some (x, i)).
    { rewrite E, nth_error_app2, Nat.sub_diag by lia; reflexivity. }
    assert (Hlt : (length pre < length xs)%nat).
    { rewrite <- (enum_from_length 0 xs); apply nth_error_Some; unfold enum in Hn; congruence. }
    destruct (nth_error xs (length pre)) as [x'|] eqn:Ex; [|apply nth_error_None in Ex; lia].
    pose proof (nth_error_enum xs 0 _ _ Ex) as Hn'; unfold enum in Hn; rewrite Hn in Hn'.
    injection Hn' as -> ->; exists (length pre); split; [lia|]; split; [exact Ex|]; split.
    { replace (Z.of_nat (length pre)) with (0 + Z.of_nat (length pre)) by lia; exact Hp. }
    intros j' y Hj' Hy; pose proof (nth_error_enum xs 0 j' y Hy) as He.
    change (enum_from 0 xs) with (enum xs) in He; rewrite E, nth_error_app1 in He by lia.
    apply nth_error_In in He; rewrite Forall_forall in Hpre; exact (Hpre _ He).
Qed.
Print Assumptions C20_find_pure_arrays.

Example C20_witness :
  let s := mk 1 (col [#1; #2; #3]) 3 in
  repr s 1 (col [#1; #2; #3]) /\
  find_s (fun _ i (log : list Z) => (Ok (i =? 1), log ++ [i])) s [] = (Ok (mkFind #2 1 true), [0; 1]).
Proof. split; [repr_ex|reflexivity]. Qed.
