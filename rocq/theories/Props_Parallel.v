(** * C39-C42: parallel_execute. *)
From Verif Require Import Base Num Serie Spec BaseFacts SerieFacts Functional FunctionalFacts Utils UtilsFacts
  F64 F64Facts Exec Props_Functional Props_Merge Props_Partition.

Ltac Zify.zify_post_hook ::= Z.div_mod_to_equations.
Opaque f64_of_Z.
#[local] Existing Instance F64N.

(** A computation comes to the outcome [o]. *)
Inductive comes_to {J O : Type} (step : J -> J + O) : J -> O -> Prop :=
| ct_end : forall j o, step j = inr o -> comes_to step j o
| ct_step : forall j j' o, step j = inl j' -> comes_to step j' o -> comes_to step j o.

Lemma comes_to_unique {J O} (step : J -> J + O) j o : comes_to step j o -> forall o', comes_to step j o' -> o = o'.
Proof.
  induction 1 as [j o E|j j' o E H IH]; intros o' H'; inversion H'; subst; try congruence.
  apply IH; congruence.
Qed.

Lemma iter_r {A} n (f : A -> A) x : Nat.iter (S n) f x = Nat.iter n f (f x).
Proof. induction n as [|n IH]; [reflexivity|]; exact (f_equal f IH). Qed.

Section Par.
  Context {T : Type} {NT : Num T} {J : Type} (init : Serie T -> J) (step : J -> J + outcome (Serie T)).

  Lemma run_alone_comes_to n : forall j o, run_alone step n j = Some o -> comes_to step j o.
  Proof.
    induction n as [|n IH]; intros j o E; simpl in E; [discriminate|].
    destruct (step j) as [j'|o'] eqn:Es; [eapply ct_step; [exact Es|apply IH; exact E]|].
    injection E as <-; apply ct_end; exact Es.
  Qed.
  Lemma run_alone_complete j o : comes_to step j o -> exists n, forall m, (n <= m)%nat -> run_alone step m j = Some o.
  Proof.
    induction 1 as [j o E|j j' o E H [n IH]].
    - exists 1%nat; intros [|m] Hm; [lia|]; simpl; rewrite E; reflexivity.
    - exists (S n); intros [|m] Hm; [lia|]; simpl; rewrite E; apply IH; lia.
  Qed.

  (** what a thread ends with *)
  Definition ends (t : thread) (o : outcome (Serie T)) : Prop :=
    match t with
    | Done o' => o' = o
    | Running p j => exists r, comes_to step j r /\ o = job_result p r
    end.
  Lemma ends_unique t o o' : ends t o -> ends t o' -> o = o'.
  Proof.
    destruct t as [p j|o0]; simpl; [|congruence].
    intros (r & Hr & ->) (r' & Hr' & ->); rewrite (comes_to_unique step j r Hr r' Hr'); reflexivity.
  Qed.
  Lemma ends_step t o : ends (thread_step step t) o <-> ends t o.
  Proof.
    destruct t as [p j|o0]; simpl; [|reflexivity].
    destruct (step j) as [j'|r] eqn:E; simpl; split.
    - intros (q & Hq & ->); exists q; split; [eapply ct_step; eassumption|reflexivity].
    - intros (q & Hq & ->); exists q; split; [|reflexivity]; inversion Hq; subst; [congruence|].
      replace j' with j'0 by congruence; assumption.
    - intros <-; exists r; split; [apply ct_end; exact E|reflexivity].
    - intros (q & Hq & ->); inversion Hq; subst; [|congruence]; congruence.
  Qed.

  Lemma step_at_ends ts : forall i os, Forall2 ends (step_at step ts i) os <-> Forall2 ends ts os.
  Proof.
    induction ts as [|t ts IH]; intros i os; [destruct i; reflexivity|].
    destruct i as [|i]; simpl; split; intros H; inversion H; subst; constructor; try assumption.
    - apply ends_step; assumption.
    - apply ends_step; assumption.
    - apply (IH i); assumption.
    - apply (IH i); assumption.
  Qed.
  Lemma run_ends sched : forall ts os, Forall2 ends (run_schedule step sched ts) os <-> Forall2 ends ts os.
  Proof.
    unfold run_schedule; induction sched as [|i sched IH]; intros ts os; simpl; [reflexivity|].
    rewrite IH; apply step_at_ends.
  Qed.
  Lemma finished_ends ts : forall os, finished ts = Some os -> Forall2 ends ts os.
  Proof.
    unfold finished; induction ts as [|t ts IH]; intros os E; simpl in E; [injection E as <-; constructor|].
    destruct t as [p j|o]; [discriminate|].
    destruct (fold_right _ _ ts) as [l|] eqn:El; [|discriminate]; injection E as <-.
    constructor; [reflexivity|apply IH; reflexivity].
  Qed.
  Lemma ends_fun ts : forall os os', Forall2 ends ts os -> Forall2 ends ts os' -> os = os'.
  Proof.
    induction ts as [|t ts IH]; intros os os' H H'; inversion H; inversion H'; subst; [reflexivity|].
    f_equal; [eapply ends_unique; eassumption|apply IH; assumption].
  Qed.

  (** what the parts of a Serie come to decides the outcome *)
  Lemma parallel_decided sched s n parts rs :
    2 <= n -> partition_n n s = Ok parts -> Forall2 (fun p r => comes_to step (init p) r) parts rs ->
    forall o, parallel_execute init step sched s n = Some o ->
    o = finish s (map (fun pr => job_result (fst pr) (snd pr)) (combine parts rs)).
  Proof.
    intros Hn Hp Hr o; unfold parallel_execute.
    replace (n <? 1) with false by lia; replace (n =? 1) with false by lia; rewrite Hp.
    destruct (finished _) as [os|] eqn:Ef; [|discriminate]; simpl; intros E; injection E as <-; f_equal.
    apply finished_ends in Ef; apply run_ends in Ef; eapply ends_fun; [exact Ef|].
    clear -Hr; induction Hr as [|p r parts rs H Hr IH]; simpl; constructor; [|exact IH].
    exists r; auto.
  Qed.

  (** a thread that comes to an end can be driven to it *)
  Lemma drive t o : ends t o -> exists n, Nat.iter n (thread_step step) t = Done o.
  Proof.
    destruct t as [p j|o0]; simpl; [|intros ->; exists O; reflexivity].
    intros (r & Hr & ->); induction Hr as [j o E|j j' o E H [n IH]].
    - exists 1%nat; simpl; rewrite E; reflexivity.
    - exists (S n); rewrite iter_r; simpl; rewrite E; exact IH.
  Qed.
  Lemma run_iter_at n : forall pre t post,
    run_schedule step (repeat (length pre) n) (pre ++ t :: post) = pre ++ Nat.iter n (thread_step step) t :: post.
  Proof.
    unfold run_schedule; induction n as [|n IH]; intros pre t post; [reflexivity|].
    cbn [repeat fold_left].
    replace (step_at step (pre ++ t :: post) (length pre)) with (pre ++ thread_step step t :: post).
    - rewrite IH, iter_r; reflexivity.
    - clear; induction pre as [|u pre IH]; simpl; [reflexivity|rewrite IH; reflexivity].
  Qed.
  Lemma complete_schedule ts os : Forall2 ends ts os -> forall pre,
    exists sched, run_schedule step sched (pre ++ ts) = pre ++ map Done os.
  Proof.
    induction 1 as [|t o ts os Ht Hts IH]; intros pre; [exists []; reflexivity|].
    destruct (drive t o Ht) as [n En]; destruct (IH (pre ++ [Done o])) as [sched Es].
    exists (repeat (length pre) n ++ sched).
    unfold run_schedule in *; rewrite fold_left_app; fold (run_schedule step (repeat (length pre) n) (pre ++ t :: ts)).
    rewrite run_iter_at, En; rewrite <- app_assoc in Es; simpl in Es; rewrite Es, <- app_assoc; reflexivity.
  Qed.
  Lemma finished_done os : finished (map (@Done T J) os) = Some os.
  Proof. unfold finished; induction os as [|o os IH]; simpl; [reflexivity|rewrite IH; reflexivity]. Qed.

  Lemma gather_all (l : list (Serie T)) : gather (map Ok l) = Ok l.
  Proof.
    unfold gather.
    replace (existsb is_UB (map Ok l)) with false by (induction l as [|x l IH]; simpl; auto).
    induction l as [|x l IH]; simpl; [reflexivity|rewrite IH; reflexivity].
  Qed.
  Lemma gather_fail (l : list (Serie T)) e post : Forall (fun o => is_UB o = false) post -> gather (map Ok l ++ Throw e :: post) = Throw e.
  Proof.
    intros Hp; unfold gather; rewrite existsb_app; simpl.
    replace (existsb is_UB (map Ok l)) with false by (induction l as [|x l IH]; simpl; auto).
    replace (existsb is_UB post) with false; [|induction Hp as [|o post Ho Hp IH]; simpl; [reflexivity|rewrite Ho; exact IH]].
    simpl; induction l as [|x l IH]; simpl; [reflexivity|rewrite IH; reflexivity].
  Qed.
End Par.

(** ** C39 *)
Theorem C39_schedule_independent :
  forall (T : Type) (NT : Num T) (J : Type) (init : Serie T -> J) (step : J -> J + outcome (Serie T)) s n sched sched' o o',
  parallel_execute init step sched s n = Some o ->
  parallel_execute init step sched' s n = Some o' -> o = o'.
Proof.
  intros T NT J init step s n sched sched' o o'; unfold parallel_execute.
  destruct (n <? 1); [congruence|].
  destruct (n =? 1).
  - intros H H'; apply run_alone_comes_to in H; apply run_alone_comes_to in H'; eapply comes_to_unique; eassumption.
  - destruct (partition_n n s) as [parts|e|]; try congruence.
    destruct (finished (run_schedule step sched _)) as [os|] eqn:E; [|discriminate].
    destruct (finished (run_schedule step sched' _)) as [os'|] eqn:E'; [|discriminate].
    simpl; intros H H'; injection H as <-; injection H' as <-; f_equal.
    apply finished_ends with (step := step) in E; apply finished_ends with (step := step) in E'; apply run_ends in E; apply run_ends in E'.
    eapply ends_fun; eassumption.
Qed.
Print Assumptions C39_schedule_independent.

(** if the functor always comes to an end, some schedule completes; and a schedule that is complete stays so when continued *)
Theorem C39_complete_schedules :
  forall (T : Type) (NT : Num T) (J : Type) (init : Serie T -> J) (step : J -> J + outcome (Serie T)) s n,
  ((forall p, exists r, comes_to step (init p) r) -> exists sched o, parallel_execute init step sched s n = Some o) /\
  (forall sched more o, parallel_execute init step sched s n = Some o ->
                        parallel_execute init step (sched ++ more) s n = Some o).
Proof.
  intros T NT J init step s n; split.
  - intros Ht; unfold parallel_execute; destruct (n <? 1); [exists [], (Throw InvalidArgument); reflexivity|].
    destruct (n =? 1).
    + destruct (Ht s) as [r Hr]; destruct (run_alone_complete step _ _ Hr) as [m Hm].
      exists (repeat O m), r; rewrite repeat_length; apply Hm; lia.
    + destruct (partition_n n s) as [parts|e|]; [|exists [], (Throw e); reflexivity|exists [], UB; reflexivity].
      assert (G : exists os, Forall2 (ends step) (map (launch init) parts) os).
      { clear -Ht; induction parts as [|p parts [os IH]]; [exists []; constructor|].
        destruct (Ht p) as [r Hr]; exists (job_result p r :: os); constructor; [exists r; auto|exact IH]. }
      destruct G as [os Hos]; destruct (complete_schedule step _ _ Hos []) as [sched Es]; simpl in Es.
      exists sched, (finish s os); rewrite Es, finished_done; reflexivity.
  - intros sched more o; unfold parallel_execute; destruct (n <? 1); [auto|].
    destruct (n =? 1).
    + rewrite app_length; intros H; clear -H; revert H; generalize (init s); induction sched as [|i sched IH]; intros j H; simpl in *; [discriminate|].
      destruct (step j); [apply IH; exact H|exact H].
    + destruct (partition_n n s) as [parts|e|]; auto.
      destruct (finished (run_schedule step sched _)) as [os|] eqn:E; [|discriminate]; intros H; simpl in H; injection H as <-.
      unfold run_schedule in *; rewrite fold_left_app.
      set (ts := fold_left (step_at step) sched (map (launch init) parts)) in *.
      assert (Ed : ts = map Done os).
      { clear -E; revert os E; unfold finished; induction ts as [|t ts IH]; intros os E; simpl in E; [injection E as <-; reflexivity|].
        destruct t as [p j|o]; [discriminate|]; destruct (fold_right _ _ ts) as [l|] eqn:El; [|discriminate]; injection E as <-.
        simpl; rewrite (IH l eq_refl); reflexivity. }
      assert (Es : fold_left (step_at step) more ts = ts).
      { rewrite Ed; clear; induction more as [|i more IH]; simpl; [reflexivity|].
        replace (step_at step (map Done os) i) with (map (@Done T J) os); [exact IH|].
        clear; revert i; induction os as [|o os IH]; intros [|i]; simpl; try reflexivity; rewrite <- IH; reflexivity. }
      rewrite Es, Ed, finished_done; reflexivity.
Qed.
Print Assumptions C39_complete_schedules.

(** ** C40 *)
Theorem C40_item_wise :
  forall (T : Type) (NT : Num T) (J : Type) (init : Serie T -> J) (step : J -> J + outcome (Serie T))
         s k rows n (g : list T -> list T) kout sched o,
  repr s k rows -> 1 <= n < 2 ^ 32 -> 1 <= kout -> kout * len rows < 2 ^ 32 ->
  (forall p part, repr p k part -> len part <= len rows -> (rows <> [] -> part <> []) ->
     exists r, comes_to step (init p) (Ok r) /\ repr r kout (map g part)) ->
  parallel_execute init step sched s n = Some o ->
  exists r, o = Ok r /\ repr r kout (map g rows) /\ (2 <= n -> r = mk kout (map g rows) 3).
Proof.
  intros T NT J init step s k rows n g kout sched o Hs Hn Hk Hm Hf Ho.
  destruct (Z.eq_dec n 1) as [->|Hn1].
  - destruct (Hf s rows Hs) as (r & Hr & Rr); [lia|auto|].
    unfold parallel_execute in Ho; simpl in Ho; apply run_alone_comes_to in Ho.
    rewrite (comes_to_unique step _ _ Ho _ Hr); exists r; split; [reflexivity|]; split; [exact Rr|lia].
  - destruct (partition_n_parts s k rows n Hs Hn) as [E Et].
    set (sizes := map (sz _ _) _) in *; set (parts := split_sizes sizes rows) in *.
    assert (Ec : concat parts = rows) by (apply concat_split_sizes; lia).
    assert (Hl : len rows < 4294967296) by apply Hs.
    assert (Hkk : 0 <= k < 2147483648) by apply Hs.
    assert (Hkm : k * len rows < 4294967296) by apply Hs.
    assert (Hlen : forall part, In part parts -> len part <= len rows).
    { intros part Hin; rewrite <- Ec; clear -Hin; induction parts as [|q parts IH]; [destruct Hin|].
      simpl; rewrite len_app; pose proof (len_nonneg (concat parts)); pose proof (len_nonneg q); destruct Hin as [->|Hin]; [lia|].
      specialize (IH Hin); lia. }
    assert (Hnep : forall part, In part parts -> rows <> [] -> part <> []).
    { intros part Hin Hnr Ep; pose proof (split_sizes_lengths sizes rows ltac:(lia)) as Es; fold parts in Es.
      apply (in_map (@length (list T))) in Hin; rewrite Es, Ep in Hin; cbn [length] in Hin; unfold sizes in Hin.
      apply in_map_iff in Hin; destruct Hin as (i & Ei & Hi); apply in_seq in Hi; unfold sz in Ei.
      assert (Hr1 : 1 <= len rows) by (destruct rows; [congruence|rewrite len_cons; pose proof (len_nonneg rows); lia]).
      assert (Hd : 0 <= len rows / n) by (apply Z.div_pos; lia).
      assert (Hb : len rows / n = 0) by (destruct (_ <? _); lia).
      pose proof (Z.div_small_iff (len rows) n ltac:(lia)) as Q; apply Q in Hb; rewrite (Z.mod_small (len rows) n) in Ei by lia.
      destruct (Z.ltb_spec (Z.of_nat i) (len rows)); unfold len in *; lia. }
    assert (Hrows : Forall (rows_of_size k) parts) by (apply split_sizes_rows; exact (repr_rows _ _ _ Hs)).
    assert (G : forall l, (forall part, In part l -> In part parts) ->
      exists rs, Forall2 (fun p r => comes_to step (init p) r) (map (fun r => mk k r 3) l) (map Ok rs) /\
                 reprs rs (tables_of kout (map (map g) l)) /\
                 map (fun pr => job_result (fst pr) (snd pr)) (combine (map (fun r => mk k r 3) l) (map Ok rs)) = map Ok rs).
    { induction l as [|part l IH]; intros Hin; [exists []; split; [constructor|]; split; [constructor|reflexivity]|].
      destruct IH as (rs & A & B & C); [intros; apply Hin; right; assumption|].
      assert (Hp : In part parts) by (apply Hin; left; reflexivity).
      pose proof (Hlen part Hp) as Hlp; rewrite Forall_forall in Hrows.
      assert (Rp : repr (mk k part 3) k part).
      { apply repr_mk; auto; try lia. pose proof (len_nonneg part); nia. }
      destruct (Hf (mk k part 3) part Rp Hlp (Hnep part Hp)) as (r & Hr & Rr).
      exists (r :: rs); split; [constructor; assumption|]; split; [constructor; assumption|].
      cbn [combine map fst snd]; rewrite C; f_equal; unfold job_result.
      rewrite (repr_count _ _ _ Rr), (repr_count _ _ _ Rp), len_map, Z.eqb_refl; reflexivity. }
    destruct (G parts ltac:(auto)) as (rs & A & B & C).
    pose proof (parallel_decided init step sched s n _ _ ltac:(lia) E A o Ho) as Eo; rewrite C in Eo.
    assert (Eg : concat (map (map g) parts) = map g rows) by (rewrite <- concat_map, Ec; reflexivity).
    assert (Hne : rs <> []).
    { intros ->; inversion A as [Ea|]; symmetry in Ea; apply map_eq_nil in Ea.
      assert (L : length parts = O) by (rewrite Ea; reflexivity).
      unfold parts in L; rewrite split_sizes_length in L; unfold sizes in L; rewrite map_length, seq_length in L; lia. }
    unfold finish in Eo; rewrite gather_all in Eo; cbn [obind] in Eo.
    destruct (reprs_sizes rs kout (map (map g) parts) B) as [_ Ecnt].
    assert (Esum : fold_right Z.add 0 (map count rs) = len rows).
    { rewrite Ecnt, <- Ec; clear; induction parts as [|p parts IH]; [reflexivity|].
      simpl; rewrite IH, len_map, len_app; reflexivity. }
    rewrite Esum, (repr_count _ _ _ Hs) in Eo.
    replace (u64 (len rows)) with (len rows) in Eo by (pose proof (len_nonneg rows); symmetry; apply Z.mod_small; unfold two64; lia).
    rewrite Z.eqb_refl in Eo; simpl in Eo.
    rewrite (C29_concat T NT rs kout (map (map g) parts)) in Eo; auto; rewrite ?Eg, ?len_map; auto.
    rewrite Eg in Eo; subst o; eexists; split; [reflexivity|]; split; [|reflexivity].
    assert (Rg : rows_of_size kout (map g rows) /\ 0 <= kout < 2147483648).
    { destruct (Hf s rows Hs) as (r & _ & Rr); [lia|auto|]; split; [exact (repr_rows _ _ _ Rr)|apply Rr]. }
    apply repr_mk; try apply Rg; rewrite ?len_map; lia.
Qed.
Print Assumptions C40_item_wise.

(** ** C41 *)

(** the convention of Exec.v: exceptions of the user with a negative tag are those not derived from [std::exception] *)
Definition foreign (e : exn) : Prop := match e with UserExn tag => tag < 0 | _ => False end.
Lemma std_foreign e : (std_exn e = true <-> ~ foreign e) /\ (std_exn e = false <-> foreign e).
Proof. destruct e as [| | |tag]; simpl; try (split; split; intros; auto; discriminate || tauto); destruct (Z.leb_spec 0 tag); split; split; intros; try discriminate; try reflexivity; lia. Qed.

(** what makes a job fail: an exception derived from [std::exception], or another number of items *)
Definition fails {T} (p : Serie T) (r : outcome (Serie T)) : Prop :=
  match r with
  | Ok q => count q <> count p
  | Throw e => ~ foreign e
  | UB => False
  end.
Definition succeeds {T} (p : Serie T) (r : outcome (Serie T)) : Prop :=
  exists q, r = Ok q /\ count q = count p.

(** Every part runs to its end, whatever happens to the others.  The outcome is that of the first part, in the order of the Serie,
    that does not succeed: invalid_argument if it fails, its own exception if that is foreign to [std::exception]. *)
Theorem C41_first_failure :
  forall (T : Type) (NT : Num T) (J : Type) (init : Serie T -> J) (step : J -> J + outcome (Serie T))
         s n pre p post rpre r rpost sched o,
  2 <= n -> partition_n n s = Ok (pre ++ p :: post) ->
  Forall2 (fun p r => comes_to step (init p) r) (pre ++ p :: post) (rpre ++ r :: rpost) ->
  Forall2 succeeds pre rpre -> Forall (fun r => r <> UB) rpost ->
  parallel_execute init step sched s n = Some o ->
  (fails p r -> o = Throw InvalidArgument) /\
  (forall e, r = Throw e -> foreign e -> o = Throw e).
Proof.
  intros T NT J init step s n pre p post rpre r rpost sched o Hn Hp Hr Hpre Hpost Ho.
  pose proof (parallel_decided init step sched s n _ _ Hn Hp Hr o Ho) as Eo.
  assert (El : length pre = length rpre) by (clear -Hpre; induction Hpre; simpl; congruence).
  assert (Ecomb : combine (pre ++ p :: post) (rpre ++ r :: rpost) = combine pre rpre ++ (p, r) :: combine post rpost).
  { clear -El; revert rpre El; induction pre as [|x pre IH]; intros [|y rpre] El; try discriminate; [reflexivity|].
    simpl; rewrite IH by (simpl in El; lia); reflexivity. }
  rewrite Ecomb, map_app in Eo; cbn [map fst snd] in Eo.
  assert (Eok : exists l, map (fun pr => job_result (fst pr) (snd pr)) (combine pre rpre) = map Ok l).
  { clear -Hpre; induction Hpre as [|x y pre rpre (q & -> & Hc) Hpre [l IH]]; [exists []; reflexivity|].
    exists (q :: l); simpl; rewrite Hc, Z.eqb_refl, IH; reflexivity. }
  destruct Eok as [l El']; rewrite El' in Eo.
  set (tail := map _ (combine post rpost)) in Eo.
  assert (Ht : Forall (fun o => is_UB o = false) tail).
  { unfold tail; clear -Hpost; revert post; induction Hpost as [|y rpost Hy Hpost IH]; intros [|x post]; simpl; constructor; auto.
    destruct y as [q|e|]; simpl; [destruct (count q =? count x); reflexivity|destruct (std_exn e); reflexivity|congruence]. }
  unfold finish in Eo; split.
  - intros Hf; replace (job_result p r) with (Throw InvalidArgument : outcome (Serie T)) in Eo.
    + rewrite (gather_fail l InvalidArgument tail Ht) in Eo; exact Eo.
    + destruct r as [q|e|]; simpl in *; [|rewrite (proj2 (proj1 (std_foreign e)) Hf); reflexivity|contradiction].
      destruct (Z.eqb_spec (count q) (count p)); [contradiction|reflexivity].
  - intros e -> He; simpl in Eo; rewrite (proj2 (proj2 (std_foreign e)) He), (gather_fail l e tail Ht) in Eo; exact Eo.
Qed.
Print Assumptions C41_first_failure.

(** Undefined behaviour of any job is that of the program, whatever the other jobs do *)
Theorem C41_undefined :
  forall (T : Type) (NT : Num T) (J : Type) (init : Serie T -> J) (step : J -> J + outcome (Serie T)) s n parts rs sched o,
  2 <= n -> partition_n n s = Ok parts -> Forall2 (fun p r => comes_to step (init p) r) parts rs -> In UB rs ->
  parallel_execute init step sched s n = Some o -> o = UB.
Proof.
  intros T NT J init step s n parts rs sched o Hn Hp Hr Hu Ho.
  pose proof (parallel_decided init step sched s n _ _ Hn Hp Hr o Ho) as Eo; rewrite Eo; unfold finish, gather.
  replace (existsb is_UB (map (fun pr => job_result (fst pr) (snd pr)) (combine parts rs))) with true; [reflexivity|].
  symmetry; clear -Hr Hu; induction Hr as [|x y parts rs Hxy Hr IH]; [destruct Hu|].
  simpl; destruct Hu as [->|Hu]; [reflexivity|]; rewrite (IH Hu); apply Bool.orb_true_r.
Qed.
Print Assumptions C41_undefined.

(** If only std exceptions occur, one failing part anywhere is enough *)
Theorem C41_some_failure :
  forall (T : Type) (NT : Num T) (J : Type) (init : Serie T -> J) (step : J -> J + outcome (Serie T))
         s n parts rs sched o,
  2 <= n -> partition_n n s = Ok parts ->
  Forall2 (fun p r => comes_to step (init p) r) parts rs ->
  Forall2 (fun p r => succeeds p r \/ fails p r) parts rs ->
  (exists i p r, nth_error parts i = Some p /\ nth_error rs i = Some r /\ fails p r) ->
  parallel_execute init step sched s n = Some o -> o = Throw InvalidArgument.
Proof.
  intros T NT J init step s n parts rs sched o Hn Hp Hr Hall Hex Ho.
  assert (G : exists pre p post rpre r rpost, parts = pre ++ p :: post /\ rs = rpre ++ r :: rpost /\
    Forall2 succeeds pre rpre /\ Forall (fun r => r <> UB) rpost /\ fails p r).
  { clear -Hall Hex; destruct Hex as (i & p & r & Hi & Hj & Hf); revert i Hi Hj.
    induction Hall as [|x y parts rs Hxy Hall IH]; intros i Hi Hj; [destruct i; discriminate|].
    assert (Hnu : Forall (fun r => r <> UB) rs).
    { clear -Hall; induction Hall as [|a b parts rs [(q & -> & _)|H] Hall IH]; constructor; try exact IH; [discriminate|].
      intros ->; exact H. }
    destruct Hxy as [Hs|Hxf].
    - destruct i as [|i].
      + simpl in Hi, Hj; injection Hi as ->; injection Hj as ->.
        destruct Hs as (q & -> & Hc); simpl in Hf; congruence.
      + destruct (IH i Hi Hj) as (pre & p' & post & rpre & r' & rpost & -> & -> & A & B & C).
        exists (x :: pre), p', post, (y :: rpre), r', rpost; simpl; repeat split; auto.
    - exists [], x, parts, [], y, rs; simpl; repeat split; auto. }
  destruct G as (pre & p & post & rpre & r & rpost & -> & -> & A & B & C).
  exact (proj1 (C41_first_failure T NT J init step s n pre p post rpre r rpost sched o Hn Hp Hr A B Ho) C).
Qed.
Print Assumptions C41_some_failure.

Theorem C41_no_cores :
  forall (T : Type) (NT : Num T) (J : Type) (init : Serie T -> J) (step : J -> J + outcome (Serie T)) s sched,
  parallel_execute init step sched s 0 = Some (Throw InvalidArgument).
Proof. reflexivity. Qed.
Print Assumptions C41_no_cores.

(** the call is over only when every part's job has run to its end *)
Theorem C41_all_jobs :
  forall (T : Type) (NT : Num T) (J : Type) (init : Serie T -> J) (step : J -> J + outcome (Serie T)) s n parts sched o,
  2 <= n -> partition_n n s = Ok parts -> parallel_execute init step sched s n = Some o ->
  (forall p, In p parts -> exists r, comes_to step (init p) r) /\
  (forall i, (i < length parts)%nat -> In i sched).
Proof.
  intros T NT J init step s n parts sched o Hn Hp; unfold parallel_execute.
  replace (n <? 1) with false by lia; replace (n =? 1) with false by lia; rewrite Hp.
  destruct (finished _) as [os|] eqn:Ef; [|discriminate]; intros _; split.
  - apply (finished_ends step) in Ef; apply run_ends in Ef; clear -Ef.
    revert os Ef; induction parts as [|p parts IH]; intros os Ef q Hq; [destruct Hq|].
    inversion Ef as [|? ? ? ? Hh Ht]; subst; destruct Hq as [<-|Hq]; [|exact (IH _ Ht q Hq)].
    destruct Hh as (r & Hr & _); exists r; exact Hr.
  - intros i Hi; destruct (in_dec Nat.eq_dec i sched) as [H|H]; [exact H|exfalso].
    assert (R : forall ts, nth_error (run_schedule step sched ts) i = nth_error ts i).
    { clear -H; unfold run_schedule; induction sched as [|k sched IH]; intros ts; simpl; [reflexivity|].
      rewrite IH by (intros Hi; apply H; right; exact Hi).
      assert (Hk : k <> i) by (intros ->; apply H; left; reflexivity); clear -Hk.
      revert k i Hk; induction ts as [|t ts IH]; intros [|k] [|i] Hk; simpl; try reflexivity; [congruence|apply IH; congruence]. }
    destruct (nth_error parts i) as [p|] eqn:E; [|apply nth_error_None in E; lia].
    specialize (R (map (launch init) parts)); rewrite nth_error_map, E in R; simpl in R.
    assert (F : forall ts os p, finished ts = Some os -> nth_error ts i <> Some (launch init p)).
    { clear; intros ts; revert i; induction ts as [|t ts IH]; intros i os p Ef; [destruct i; discriminate|].
      unfold finished in Ef; simpl in Ef; destruct t as [q j|q]; [discriminate|].
      destruct (fold_right _ _ ts) as [l|] eqn:El; [|discriminate].
      destruct i as [|i]; simpl; [discriminate|apply (IH i l p El)]. }
    exact (F _ _ _ Ef R).
Qed.
Print Assumptions C41_all_jobs.

(** ** C42 *)
(** With one core the functor is called directly: another count is accepted, an exception comes out as it is. *)
Theorem C42_refuted :
  (exists (init : Serie F64 -> Serie F64) step s q sched,
     comes_to step (init s) (Ok q) /\ count q <> count s /\ parallel_execute init step sched s 1 = Some (Ok q) /\
     exists sched2, parallel_execute init step sched2 s 2 = Some (Throw InvalidArgument)) /\
  (exists (init : Serie F64 -> Serie F64) step s sched,
     parallel_execute init step sched s 1 = Some (Throw RuntimeError) /\
     exists sched2, parallel_execute init step sched2 s 2 = Some (Throw InvalidArgument)).
Proof.
  split.
  - exists (fun s => s), (fun _ => inr (Ok (mk 1 [] 3))), (mk 1 (col [#1; #2]) 3), (mk 1 [] 3), [O].
    split; [apply ct_end; reflexivity|]; split; [discriminate|]; split; [reflexivity|].
    exists [1%nat; O]; reflexivity.
  - exists (fun s => s), (fun _ => inr (Throw RuntimeError)), (mk 1 (col [#1; #2]) 3), [O]; split; [reflexivity|].
    exists [1%nat; O]; reflexivity.
Qed.
Print Assumptions C42_refuted.

(** From two cores on, a functor that always changes the count, or always throws a std exception, is refused *)
Theorem C42_refused_partial :
  forall (T : Type) (NT : Num T) (J : Type) (init : Serie T -> J) (step : J -> J + outcome (Serie T))
         s k rows n sched o,
  repr s k rows -> 2 <= n < 2 ^ 32 ->
  (forall p, exists r, comes_to step (init p) r /\ fails p r) ->
  parallel_execute init step sched s n = Some o -> o = Throw InvalidArgument.
Proof.
  intros T NT J init step s k rows n sched o Hs Hn Hf Ho.
  destruct (partition_n_parts s k rows n Hs ltac:(lia)) as [E _].
  set (parts := map _ _) in E.
  assert (G : forall l, exists rs, Forall2 (fun p r => comes_to step (init p) r /\ fails p r) l rs).
  { induction l as [|p l [rs IH]]; [exists []; constructor|].
    destruct (Hf p) as (r & Hr); exists (r :: rs); constructor; assumption. }
  destruct (G parts) as [rs Hrs].
  assert (L : parts <> []).
  { intros E0; apply map_eq_nil in E0.
    match type of E0 with split_sizes ?a ?b = [] =>
      pose proof (split_sizes_length a b) as Q; rewrite E0, map_length, seq_length in Q; cbn [length] in Q; lia end. }
  apply (C41_some_failure T NT J init step s n parts rs sched o); auto; try lia.
  - clear -Hrs; induction Hrs as [|p r parts rs [A _] Hrs IH]; constructor; assumption.
  - clear -Hrs; induction Hrs as [|p r parts rs [_ A] Hrs IH]; constructor; auto.
  - destruct Hrs as [|p r parts' rs' [A B] Hrs]; [congruence|]; exists O, p, r; auto.
Qed.
Print Assumptions C42_refused_partial.

(** ** Examples: jobs of two steps that copy every item, on a Serie of three items, two cores, two interleavings *)
Definition ex_init (s : Serie F64) : nat * Serie F64 := (1%nat, s).
Definition ex_step (j : nat * Serie F64) : (nat * Serie F64) + outcome (Serie F64) :=
  match fst j with
  | S n => inl (n, snd j)
  | O => inr (fst (map_ss (fun x _ => ret x) (snd j) tt))
  end.

Example C39_witness :
  let s := mk 1 (col [#1; #2; #3]) 3 in
  parallel_execute ex_init ex_step [0; 0; 1; 1]%nat s 2 = Some (Ok s) /\
  parallel_execute ex_init ex_step [1; 0; 1; 0]%nat s 2 = Some (Ok s) /\
  parallel_execute ex_init ex_step [1; 1; 0]%nat s 2 = None.
Proof. split; [reflexivity|]; split; reflexivity. Qed.

Example C41_witness :
  let s := mk 1 (col [#1; #2; #3]) 3 in
  let step := fun p : Serie F64 => inr (if count p =? 1 then Throw RuntimeError else Ok p) in
  exists parts rs, partition_n 2 s = Ok parts /\
    Forall2 (fun p r => comes_to step p r) parts rs /\ Forall2 (fun p r => succeeds p r \/ fails p r) parts rs /\
    exists i p r, nth_error parts i = Some p /\ nth_error rs i = Some r /\ fails p r.
Proof.
  exists [mk 1 (col [#1; #2]) 3; mk 1 (col [#3]) 3], [Ok (mk 1 (col [#1; #2]) 3); Throw RuntimeError].
  split; [reflexivity|]; split; [constructor; [apply ct_end; reflexivity|constructor; [apply ct_end; reflexivity|constructor]]|].
  split; [constructor; [left; eexists; split; reflexivity|constructor; [right; intros []|constructor]]|].
  exists 1%nat; do 2 eexists; split; [reflexivity|]; split; [reflexivity|intros []].
Qed.

(** an item-wise functor of two steps *)
Example C40_witness :
  let init := fun s : Serie F64 => (1%nat, s) in
  let step := fun j : nat * Serie F64 => match fst j with S n => inl (n, snd j) | O => inr (Ok (snd j)) end in
  let s := mk 2 [[#1; #2]; [#3; #4]; [#5; #6]] 3 in
  repr s 2 [[#1; #2]; [#3; #4]; [#5; #6]] /\
  (forall p part, repr p 2 part -> exists r, comes_to step (init p) (Ok r) /\ repr r 2 (map (fun x => x) part)) /\
  parallel_execute init step [1; 0; 0; 1]%nat s 2 = Some (Ok s).
Proof.
  split; [repr_ex|]; split; [|reflexivity].
  intros p part Hp; exists p; rewrite map_id; split; [|exact Hp].
  eapply ct_step; [reflexivity|]; apply ct_end; reflexivity.
Qed.
