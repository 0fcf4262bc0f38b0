(** * C124: memoized functors in parallel_execute. *)
From Flocq Require Import IEEE754.BinarySingleNaN.
From Verif Require Import Base Num Serie Spec BaseFacts SerieFacts Functional Utils UtilsFacts Exec ExecMemo F64 F64Facts OrderFacts Props_Functional Props_Partition Props_Parallel Props_Memo.
Open Scope Z_scope.

Lemma Forall2_self {A B} (P : A -> B -> Prop) g l : (forall x, P x (g x)) -> Forall2 P l (map g l).
Proof. intros H; induction l; constructor; auto. Qed.

Section Same.
  Context {T : Type} {NT : Num T}.

  Lemma same_parts (a b : Serie T) : same_serie a b -> exists d, a = mkSerie (s_ b) (count_ b) d (itemSize_ b).
  Proof. destruct a as [sa ca da ia], b as [sb cb db ib]; intros (E1 & E2 & E3); cbn in *; subst; exists da; reflexivity. Qed.

  Lemma concat_check_same (l l' : list (Serie T)) k : Forall2 same_serie l l' -> concat_check l k = concat_check l' k.
  Proof.
    intros H; unfold concat_check; generalize 0; induction H as [|a b l l' Hab H IH]; intros t; [reflexivity|].
    destruct (same_parts a b Hab) as [d ->]; cbn [foldO].
    change (isValid (mkSerie (s_ b) (count_ b) d (itemSize_ b))) with (isValid b).
    change (itemSize (mkSerie (s_ b) (count_ b) d (itemSize_ b))) with (itemSize b).
    change (count (mkSerie (s_ b) (count_ b) d (itemSize_ b))) with (count b).
    destruct (negb (isValid b) || negb (itemSize b =? k))%bool; [reflexivity|apply IH].
  Qed.
  Lemma put_next_all_same (a b : Serie T) st : same_serie a b -> put_next_all a st = put_next_all b st.
  Proof. intros H; destruct (same_parts a b H) as [d ->]; reflexivity. Qed.
  Lemma concat_same (l l' : list (Serie T)) : Forall2 same_serie l l' -> concat_series l = concat_series l'.
  Proof.
    intros H; destruct H as [|a b l l' Hab H]; [reflexivity|]; unfold concat_series.
    rewrite (concat_check_same (a :: l) (b :: l') (itemSize a)) by (constructor; assumption).
    assert (E : itemSize a = itemSize b) by (unfold itemSize; destruct Hab as (_ & _ & ->); reflexivity); rewrite E.
    destruct (concat_check (b :: l') (itemSize b)) as [t| |]; cbn [obind]; [|reflexivity|reflexivity].
    generalize (serie_n (s32 (itemSize b)) t 3, 0); intros st.
    enough (G : foldO (fun st s => put_next_all s st) (a :: l) st = foldO (fun st s => put_next_all s st) (b :: l') st) by (rewrite G; reflexivity).
    assert (H' : Forall2 same_serie (a :: l) (b :: l')) by (constructor; assumption).
    clear -H'; revert st; induction H' as [|x y m m' Hxy H IH]; intros st; [reflexivity|]; cbn [foldO].
    rewrite (put_next_all_same x y st Hxy); destruct (put_next_all y st); cbn [obind]; [apply IH|reflexivity|reflexivity].
  Qed.

  Lemma job_result_same p (a b : outcome (Serie T)) : same_outcome a b -> same_outcome (job_result p a) (job_result p b).
  Proof.
    destruct a as [x|e|], b as [y|e'|]; cbn; try contradiction; auto; [|intros ->; destruct (std_exn e'); reflexivity].
    intros (E1 & E2 & E3); unfold count; rewrite E2; destruct (count_ y =? count_ p); [repeat split; assumption|reflexivity].
  Qed.
  Lemma finish_same s (l l' : list (outcome (Serie T))) : Forall2 same_outcome l l' -> finish s l = finish s l'.
  Proof.
    intros H; unfold finish, gather.
    assert (E : existsb is_UB l = existsb is_UB l').
    { induction H as [|a b l l' Hab H IH]; [reflexivity|]; cbn [existsb]; rewrite IH; destruct a, b; cbn in *; try contradiction; reflexivity. }
    rewrite E; destruct (existsb is_UB l'); [reflexivity|].
    assert (G : (exists rs rs', mapO (fun o => o) l = Ok rs /\ mapO (fun o => o) l' = Ok rs' /\ Forall2 same_serie rs rs') \/
                (exists e, mapO (fun o => o) l = Throw e /\ mapO (fun o => o) l' = Throw e) \/
                (mapO (fun o => o) l = UB /\ mapO (fun o => o) l' = UB)).
    { clear E; induction H as [|a b l l' Hab H IH]; [left; exists [], []; repeat split; constructor|]; cbn [mapO].
      destruct a as [x|e|], b as [y|e'|]; cbn in Hab; try contradiction; cbn [obind].
      - destruct IH as [(rs & rs' & E1 & E2 & F)|[(e & E1 & E2)|[E1 E2]]]; rewrite E1, E2; cbn [obind].
        + left; exists (x :: rs), (y :: rs'); repeat split; constructor; assumption.
        + right; left; exists e; split; reflexivity.
        + right; right; split; reflexivity.
      - subst; right; left; exists e'; split; reflexivity.
      - right; right; split; reflexivity. }
    destruct G as [(rs & rs' & E1 & E2 & F)|[(e & E1 & E2)|[E1 E2]]]; rewrite E1, E2; cbn [obind]; try reflexivity.
    assert (Ec : map count rs = map count rs').
    { clear -F; induction F as [|a b l l' Hab F IH]; [reflexivity|]; cbn [map]; rewrite IH; f_equal; apply Hab. }
    rewrite Ec; destruct (negb _); [reflexivity|apply concat_same; exact F].
  Qed.
End Same.

Section Transparent.
  Context (L : Libm) {J : Type} (init : Serie F64 -> J) (step : J -> J + outcome (Serie F64)) (f : Serie F64 -> outcome (Serie F64)).
  Context (Hf : forall p, comes_to step (init p) (f p)).
  Local Instance NT : Num F64 := f64_num L.

  Lemma memo_comes_to c p : comes_to (memo_step step) (memo_init init c p) (fst (memo_call (St := unit) (fun s => lift (f s)) p (tt, c))).
  Proof.
    unfold memo_init, memo_call; destruct (make_key p) as [key|e|]; cbn [fst snd]; [|apply ct_end; reflexivity|apply ct_end; reflexivity].
    destruct (swo_on klt (key :: map fst c)); [|apply ct_end; reflexivity].
    destruct (cache_find key c) as [r|]; [apply ct_end; reflexivity|].
    assert (G : forall j o, comes_to step j o -> comes_to (memo_step step) (inr j) o).
    { clear; intros j o H; induction H as [j o E|j j' o E H IH].
      - apply ct_end; unfold memo_step; rewrite E; reflexivity.
      - eapply ct_step; [unfold memo_step; rewrite E; reflexivity|exact IH]. }
    unfold lift; pose proof (G _ _ (Hf p)) as C; destruct (f p); cbn [fst]; exact C.
  Qed.

  Lemma memo_same k dim c p : plain_serie k dim p -> cache_ok f (plain_serie k dim) c ->
    same_outcome (f p) (fst (memo_call (St := unit) (fun s => lift (f s)) p (tt, c))).
  Proof.
    intros Hp Hc; apply (memo_call_ok f (plain_serie k dim)); [| | |exact Hp|exact Hc].
    - intros a b ka kb (Hk & ra & Ea & Ra & Pa) (_ & rb & Eb & Rb & Pb) Hka Hkb He.
      rewrite (make_key_repr a k ra Ra) in Hka; injection Hka as <-.
      rewrite (make_key_repr b k rb Rb) in Hkb; injection Hkb as <-.
      assert (E : ra = rb).
      { apply (concat_inj k); [exact Hk|exact (repr_rows _ _ _ Ra)|exact (repr_rows _ _ _ Rb)|exact (kequiv_plain L _ _ Pa Pb He)]. }
      rewrite Ea, Eb, E; destruct (f (mk k rb dim)); simpl; auto; repeat split.
    - intros a (_ & ra & _ & Ra & _); exists (concat ra); apply (make_key_repr a k ra Ra).
    - intros ks Hks; apply klt_swo; eapply Forall_impl; [|exact Hks].
      intros key (a & (_ & ra & _ & Ra & Pa) & Hka).
      rewrite (make_key_repr a k ra Ra) in Hka; injection Hka as <-.
      eapply Forall_impl; [|exact Pa]; intros x [Hx _]; exact Hx.
  Qed.
End Transparent.

(** The result is that of the functor itself, bit for bit, for every number of cores from 2 up, every schedule of the one call and of
    the other, and every sound content of the cache. *)
Theorem C124_same_result_partial :
  forall (L : Libm) (J : Type) (init : Serie F64 -> J) (step : J -> J + outcome (Serie F64)) (f : Serie F64 -> outcome (Serie F64))
         k s rows c n sched sched' o o',
  (forall p, comes_to step (init p) (f p)) -> repr s k rows -> 1 <= k -> Forall plain (concat rows) -> cache_ok f (plain_serie k 3) c ->
  2 <= n < 2 ^ 32 ->
  parallel_execute (H := f64_num L) init step sched s n = Some o -> memo_parallel (H := f64_num L) init step c sched' s n = Some o' -> o' = o.
Proof.
  intros L J init step f k s rows c n sched sched' o o' Hf Hs Hk Pl Hc Hn Ho Ho'.
  destruct (@partition_n_parts F64 (f64_num L) s k rows n Hs ltac:(lia)) as [E Et].
  set (sizes := map (sz _ _) _) in *; set (parts := split_sizes sizes rows) in *.
  assert (Hparts : Forall (fun part => plain_serie k 3 (mk k part 3)) parts).
  { assert (Ec : concat parts = rows).
    { apply concat_split_sizes; lia. }
    assert (Hrows : Forall (rows_of_size k) parts) by (apply split_sizes_rows; exact (repr_rows _ _ _ Hs)).
    rewrite Forall_forall in Hrows; apply Forall_forall; intros part Hin; split; [exact Hk|]; exists part; split; [reflexivity|].
    assert (Hle : len part <= len rows).
    { rewrite <- Ec; clear -Hin; induction parts as [|q parts IH]; [destruct Hin|].
      simpl; rewrite len_app; pose proof (len_nonneg (concat parts)); pose proof (len_nonneg q); destruct Hin as [->|Hin]; [lia|].
      specialize (IH Hin); lia. }
    destruct Hs as (_ & _ & _ & _ & Hb & Hl & Hm); pose proof (len_nonneg part); split.
    - apply repr_mk; [apply Hrows; exact Hin|lia|lia|nia].
    - apply Forall_forall; intros x Hx; rewrite Forall_forall in Pl; apply Pl; rewrite <- Ec.
      apply in_concat in Hx; destruct Hx as (r & Hr & Hx); apply in_concat; exists r; split; [|exact Hx].
      apply in_concat; exists part; split; assumption. }
  rewrite (@parallel_decided F64 (f64_num L) J init step sched s n _ (map f (map (fun r => mk k r 3) parts)) ltac:(lia) E) with (o := o);
    [|apply Forall2_self; exact Hf|exact Ho].
  unfold memo_parallel in Ho'.
  rewrite (@parallel_decided F64 (f64_num L) _ (memo_init (H := f64_num L) init c) (memo_step step) sched' s n _
             (map (fun p => fst (memo_call (H := f64_num L) (St := unit) (fun s => lift (f s)) p (tt, c))) (map (fun r => mk k r 3) parts)) ltac:(lia) E) with (o := o');
    [|apply Forall2_self; intros p; apply memo_comes_to; exact Hf|exact Ho'].
  symmetry; apply finish_same; clear -Hparts Hc; induction Hparts as [|part l Hp _ IH]; cbn [map combine]; constructor; [|exact IH].
  cbn [fst snd]; apply job_result_same; apply (memo_same L f k 3 c _ Hp Hc).
Qed.
Print Assumptions C124_same_result_partial.

(** With one core: the same, up to the dimension of the result; and once it has been computed it is not computed again. *)
Theorem C124_one_core_partial :
  forall (L : Libm) (J : Type) (init : Serie F64 -> J) (step : J -> J + outcome (Serie F64)) (f : Serie F64 -> outcome (Serie F64))
         k dim s c sched sched' o o',
  (forall p, comes_to step (init p) (f p)) -> plain_serie k dim s -> cache_ok f (plain_serie k dim) c ->
  parallel_execute (H := f64_num L) init step sched s 1 = Some o -> memo_parallel (H := f64_num L) init step c sched' s 1 = Some o' ->
  same_outcome o o' /\
  forall r, o = Ok r -> computed_parts (H := f64_num L) init (memo_cache_after (H := f64_num L) c s 1 o) s 1 = Ok [].
Proof.
  intros L J init step f k dim s c sched sched' o o' Hf Hp Hc Ho Ho'.
  assert (Eo : o = f s).
  { unfold parallel_execute in Ho; simpl in Ho; apply run_alone_comes_to in Ho; rewrite (comes_to_unique step _ _ Ho _ (Hf s)); reflexivity. }
  assert (Eo' : o' = fst (memo_call (H := f64_num L) (St := unit) (fun s => lift (f s)) s (tt, c))).
  { unfold memo_parallel, parallel_execute in Ho'; simpl in Ho'; apply run_alone_comes_to in Ho'.
    exact (comes_to_unique _ _ _ Ho' _ (memo_comes_to L init step f Hf c s)). }
  split; [rewrite Eo, Eo'; apply (memo_same L f k dim c s Hp Hc)|].
  intros r Er; unfold computed_parts, memo_cache_after; change (1 =? 1) with true; cbv iota; f_equal; cbn [filter].
  destruct Hp as (Hk & rows & Es & Rs & Ps).
  pose proof (make_key_repr s k rows Rs) as Ek.
  assert (Sw : forall m, Forall (fun e : list F64 * Serie F64 => exists a, plain_serie k dim a /\ make_key a = Ok (fst e)) m -> swo_on (klt (H := f64_num L)) (concat rows :: map fst m) = true).
  { intros m Hm; apply (klt_swo L); constructor; [eapply Forall_impl; [|exact Ps]; intros x [Hx _]; exact Hx|].
    apply Forall_forall; intros key Hkey; apply in_map_iff in Hkey; destruct Hkey as (e & <- & He); rewrite Forall_forall in Hm.
    destruct (Hm e He) as (a & (_ & ra & _ & Ra & Pa) & Hka); rewrite (make_key_repr a k ra Ra) in Hka; injection Hka as <-.
    eapply Forall_impl; [|exact Pa]; intros x [Hx _]; exact Hx. }
  assert (Cc : Forall (fun e : list F64 * Serie F64 => exists a, plain_serie k dim a /\ make_key a = Ok (fst e)) c).
  { unfold cache_ok in Hc; eapply Forall_impl; [|exact Hc]; intros e (a & ? & Ha & Hka & _); exists a; split; assumption. }
  unfold runs, memo_init, memo_call; rewrite Ek; cbn [fst snd]; rewrite (Sw c Cc).
  destruct (cache_find (H := f64_num L) (concat rows) c) as [v|] eqn:Ef; cbn [fst snd].
  - rewrite (Sw c Cc), Ef; reflexivity.
  - unfold lift; rewrite Er; cbn [fst snd]; rewrite Sw.
    + unfold cache_find in *; destruct (find _ c) as [e|] eqn:Ef'; [discriminate Ef|].
      assert (Ef2 : forall v : Serie F64, find (fun e => kequiv (H := f64_num L) (concat rows) (fst e)) (c ++ [(concat rows, v)]) = Some (concat rows, v)).
      { intros v; clear -Ef' Ps; induction c as [|e c IH]; cbn [app find fst] in *.
        - unfold kequiv, incomparable.
          destruct (klt (H := f64_num L) (concat rows) (concat rows)) eqn:I; [|reflexivity].
          exfalso; assert (Nn : Forall not_nan (concat rows)) by (eapply Forall_impl; [|exact Ps]; intros x [Hx _]; exact Hx).
          apply (klt_lexP L _ _ Nn Nn) in I; exact (lexP_irrefl _ I).
        - destruct (kequiv _ _); [discriminate|apply IH; exact Ef']. }
      rewrite Ef2; reflexivity.
    + apply Forall_app; split; [exact Cc|constructor; [|constructor]]; cbn [fst]; exists s; split; [split; [exact Hk|exists rows; auto]|exact Ek].
Qed.
Print Assumptions C124_one_core_partial.

(** A call with any other number of cores leaves the caller's cache as it was: whatever later call is made, with any number of cores,
    computes the same parts as it would have without the call. *)
Theorem C124_cores_forget :
  forall (T : Type) (NT : Num T) (J : Type) (init : Serie T -> J) c s n o t m, n <> 1 ->
  computed_parts init (memo_cache_after c s n o) t m = computed_parts init c t m.
Proof. intros T NT J init c s n o t m Hn; unfold memo_cache_after; destruct (Z.eqb_spec n 1); [contradiction|reflexivity]. Qed.
Print Assumptions C124_cores_forget.

(** Identity functor, cores 2: the result is there, and the same call computes both parts once more; with one core it does not. *)
Theorem C124_remembered_refuted :
  exists (s : Serie F64), let f := fun p : Serie F64 => (inr (Ok p) : Serie F64 + outcome (Serie F64)) in
  let parts := [mk 1 (col [zero; inf]) 3; mk 1 (col [zero]) 3] in
  memo_parallel (H := F64N) (fun p => p) f [] [0; 1]%nat s 2 = Some (Ok s) /\
  computed_parts (H := F64N) (fun p => p) [] s 2 = Ok parts /\
  computed_parts (H := F64N) (fun p => p) (memo_cache_after (H := F64N) [] s 2 (Ok s)) s 2 = Ok parts /\
  computed_parts (H := F64N) (fun p => p) (memo_cache_after (H := F64N) [] s 2 (Ok s)) s 1 = Ok [s] /\
  computed_parts (H := F64N) (fun p => p) [] s 1 = Ok [s] /\
  computed_parts (H := F64N) (fun p => p) (memo_cache_after (H := F64N) [] s 1 (Ok s)) s 1 = Ok [].
Proof. exists (mk 1 (col [zero; inf; zero]) 3); repeat split. Qed.
Print Assumptions C124_remembered_refuted.

(** a cache filled by a call with one core on the first half is used by a job of the second call *)
Example C124_witness :
  let s := mk 1 (col [zero; inf; zero]) 3 in let a := mk 1 (col [zero; inf]) 3 in
  let init := fun p : Serie F64 => p in let step := fun p : Serie F64 => (inr (Ok p) : Serie F64 + outcome (Serie F64)) in
  let c := memo_cache_after (H := F64N) [] a 1 (Ok a) in
  repr s 1 (col [zero; inf; zero]) /\ Forall plain (concat (col [zero; inf; zero])) /\
  (forall p, comes_to step (init p) (Ok p)) /\ cache_ok (fun p => Ok p) (plain_serie 1 3) c /\
  computed_parts (H := F64N) init c s 2 = Ok [mk 1 (col [zero]) 3] /\
  memo_parallel (H := F64N) init step c [1; 0]%nat s 2 = Some (Ok s).
Proof.
  intros s a init step c; split; [repr_ex|]; split.
  { repeat constructor; try discriminate; intros E; discriminate E. }
  split; [intros p; apply ct_end; reflexivity|]; split.
  { constructor; [|constructor]; exists a, a; split; [|repeat split].
    split; [lia|]; exists (col [zero; inf]); split; [reflexivity|]; split; [repr_ex|].
    repeat constructor; try discriminate; intros E; discriminate E. }
  split; reflexivity.
Qed.
