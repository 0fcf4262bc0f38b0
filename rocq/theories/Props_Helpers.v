(** * C147: the helpers of the headers. *)
From Verif Require Import Base Num Serie Spec BaseFacts SerieFacts Functional FunctionalFacts F64 F64Facts F64Arith F64Round Props_Serie Props_Functional.
From Flocq Require Import Core IEEE754.BinarySingleNaN.
From Verif Require Import Helpers.
Open Scope Z_scope.
Opaque f64_of_Z.

(** ** toSerie and createArray *)
(** the dimension given to [toSerie] is ignored: it is always 3; an item size of 2^31 or more becomes negative *)
Theorem C147_toSerie :
  forall (T : Type) (k : Z) (rows : list (list T)) (leftover : list T) (dim : Z),
  (toSerie 0 (concat rows ++ leftover) dim = UB) /\
  (1 <= k < 2 ^ 31 -> rows_of_size k rows -> k * len rows < 2 ^ 32 -> len leftover < k ->
   exists s, toSerie k (concat rows ++ leftover) dim = Ok s /\ itemSize s = k /\ count s = len rows /\ dimension s = 3 /\ isValid s = true /\ asArray s = concat rows ++ leftover /\
     forall i, 0 <= i < len rows -> get_array s i = Ok (nth (Z.to_nat i) rows [])) /\
  (2 ^ 31 <= k < 2 ^ 32 -> len (concat rows ++ leftover) < 2 ^ 31 ->
   exists s, toSerie k (concat rows ++ leftover) dim = Ok s /\ isValid s = false /\ count s = 0 /\ itemSize_ s = k - 2 ^ 32 /\ dimension s = 3).
Proof.
  intros T k rows leftover dim; unfold toSerie; split; [reflexivity|split].
  - intros Hk1 Hr Hl Ho; rewrite s32_small by lia.
    destruct (C01_construction T k rows leftover 3 Hk1 Hr Hl Ho) as (s & E & I & C & _ & D & V & G & _).
    exists s; repeat (split; [assumption|]); split; [|intros i Hi; apply G; exact Hi].
    revert E; unfold serie_of; destruct (k =? 0); [discriminate|]; intros Q; injection Q as <-; reflexivity.
  - intros Hk1 Hl; pose proof (len_nonneg (concat rows ++ leftover)) as L0; set (l := concat rows ++ leftover) in *; clearbody l.
    assert (E : s32 k = k - 4294967296) by (unfold s32, two31, two32; replace (k + 2147483648) with (k - 2147483648 + 1 * 4294967296) by ring; rewrite Z_mod_plus_full, Z.mod_small by lia; lia).
    rewrite E; unfold serie_of; destruct (Z.eqb_spec (k - 4294967296) 0); [lia|].
    assert (U : u64 (k - 4294967296) = k - 4294967296 + 18446744073709551616) by (unfold u64, two64; rewrite <- (Z_mod_plus_full _ 1), Z.mod_small by lia; lia).
    rewrite U, Z.div_small by lia; eexists; split; [reflexivity|]; split; [|split; [reflexivity|split; [reflexivity|reflexivity]]].
    unfold isValid; cbn [itemSize_]; apply Z.ltb_ge; lia.
Qed.
Print Assumptions C147_toSerie.
Theorem C147_createArray :
  forall (T : Type) (n : Z) (x : T), 0 <= n -> len (createArray n x) = n /\ forall i, 0 <= i < n -> rd (createArray n x) i = Ok x.
Proof.
  intros T n x Hn; unfold createArray, replicate.
  assert (L : len (repeat x (Z.to_nat n)) = n) by (unfold len; rewrite repeat_length; lia).
  split; [exact L|]; intros i Hi; rewrite (rd_nth _ i x) by (rewrite L; exact Hi); f_equal; apply nth_repeat.
Qed.
Print Assumptions C147_createArray.

(** ** counts *)
Lemma getCount_map {T} (ss : list (Serie T)) : getCount ss = map count ss.
Proof.
  unfold getCount; assert (G : forall acc, fold_left (fun counts s => counts ++ [count s]) ss acc = acc ++ map count ss); [|apply G].
  induction ss as [|s ss IH]; intros acc; cbn [fold_left map]; [rewrite app_nil_r; reflexivity|rewrite IH, <- app_assoc; reflexivity].
Qed.
Lemma check_counts_spec counts first rest : forall i,
  (Forall (fun c => c = first) rest /\ check_counts counts first rest i = Counts counts) \/
  (exists j c, nth_error rest j = Some c /\ c <> first /\ (forall j', (j' < j)%nat -> nth_error rest j' = Some first) /\ check_counts counts first rest i = Mismatch first (i + Z.of_nat j) c).
Proof.
  induction rest as [|c rest IH]; intros i; cbn [check_counts]; [left; split; [constructor|reflexivity]|].
  destruct (Z.eqb_spec c first) as [-> |N]; cbn [negb].
  - destruct (IH (i + 1)) as [[A E]|(j & c & Hj & Hc & Hb & E)]; [left; split; [constructor; [reflexivity|exact A]|exact E]|].
    right; exists (S j), c; split; [exact Hj|]; split; [exact Hc|]; split; [intros [|j'] Hj'; [reflexivity|apply Hb; lia]|].
    rewrite E; f_equal; lia.
  - right; exists 0%nat, c; split; [reflexivity|]; split; [exact N|]; split; [intros j' Hj'; lia|]; f_equal; lia.
Qed.
(** one count per Serie, in order, when all are equal; otherwise the exception names the first Serie that differs from
    Serie number 0, its number and both counts *)
Theorem C147_counts :
  forall (T : Type) (ss : list (Serie T)),
  getCount ss = map count ss /\
  ((forall s s', In s ss -> In s' ss -> count s = count s') <-> countsAndCheck ss = Counts (map count ss)) /\
  (forall cs, countsAndCheck ss = Counts cs -> cs = map count ss) /\
  (forall first i other, countsAndCheck ss = Mismatch first i other <->
     exists s0 s j, nth_error ss 0 = Some s0 /\ count s0 = first /\ i = Z.of_nat j /\ nth_error ss j = Some s /\ count s = other /\ other <> first /\
       forall j' s', (j' < j)%nat -> nth_error ss j' = Some s' -> count s' = first) /\
  countAndCheck ss = match countsAndCheck ss with Counts (c :: _) => Ok c | Counts [] => UB | Mismatch _ _ _ => Throw InvalidArgument end.
Proof.
  intros T ss; split; [apply getCount_map|]; unfold countsAndCheck; rewrite getCount_map.
  destruct ss as [|s0 ss]; cbn [map].
  { split; [split; [reflexivity|intros _ s s' []]|]; split; [intros cs E; congruence|]; split; [|reflexivity].
    intros first i other; split; [discriminate|intros (a & b & j & H & _); discriminate H]. }
  destruct (check_counts_spec (count s0 :: map count ss) (count s0) (map count ss) 1) as [[A ->]|(j & c & Hj & Hc & Hb & ->)].
  - rewrite Forall_map, Forall_forall in A.
    split; [split; [reflexivity|]; intros _ s s' [<-|H] [<-|H']; rewrite ?(A _ H), ?(A _ H'); reflexivity|]; split; [intros cs E; congruence|]; split.
    + intros first i other; split; [discriminate|]; intros (a & b & j & H0 & <- & _ & Hj & <- & Hne & _); injection H0 as <-; exfalso; apply Hne.
      apply nth_error_In in Hj; destruct Hj as [<-|Hj]; [reflexivity|apply A; exact Hj].
    + unfold countAndCheck; replace (forallb (fun s => count s =? count s0) ss) with true; [reflexivity|]; symmetry; apply forallb_forall; intros s Hs; apply Z.eqb_eq, A; exact Hs.
  - rewrite nth_error_map in Hj; destruct (nth_error ss j) as [s|] eqn:Es; [|discriminate Hj]; injection Hj as Ec.
    split; [split; [|discriminate]; intros H; exfalso; apply Hc; rewrite <- Ec; apply H; [right; apply (nth_error_In _ _ Es)|left; reflexivity]|]; split; [discriminate|]; split.
    + intros first i other; split.
      * intros Q; injection Q as <- <- <-; exists s0, s, (S j); split; [reflexivity|]; split; [reflexivity|]; split; [lia|]; split; [exact Es|]; split; [exact Ec|]; split; [exact Hc|].
        intros [|j'] s' Hj' E; [injection E as <-; reflexivity|]; cbn in E; specialize (Hb j' ltac:(lia)); rewrite nth_error_map, E in Hb; injection Hb as ->; reflexivity.
      * intros (a & b & k & H0 & <- & -> & Hk & <- & Hne & Hbef); injection H0 as <-.
        destruct k as [|k]; [injection Hk as <-; contradiction|]; cbn in Hk.
        destruct (Nat.lt_trichotomy k j) as [X|[-> |X]].
        -- exfalso; apply Hne; specialize (Hb k X); rewrite nth_error_map, Hk in Hb; injection Hb as ->; reflexivity.
        -- rewrite Es in Hk; injection Hk as <-; rewrite Ec; f_equal; lia.
        -- exfalso; apply Hc; rewrite <- Ec; apply (Hbef (S j) s ltac:(lia)); exact Es.
    + unfold countAndCheck; destruct (forallb (fun s => count s =? count s0) ss) eqn:F; [|reflexivity].
      rewrite forallb_forall in F; specialize (F s (nth_error_In _ _ Es)); apply Z.eqb_eq in F; congruence.
Qed.
Print Assumptions C147_counts.

(** ** map on a std::vector *)
Lemma vec_map_acc {A St} (func : A -> M St A) l : forall k st ys st' acc, calls (fun x _ => func x) (enum_from k l) st ys st' ->
  foldM (fun result element => let! y := func element in ret (result ++ [y])) l acc st = (Ok (acc ++ ys), st').
Proof.
  induction l as [|x l IH]; intros k st ys st' acc H; cbn [enum_from] in H; inversion H; subst; cbn [foldM].
  - rewrite app_nil_r; reflexivity.
  - unfold mbind at 1; unfold mbind; match goal with E : func x st = _ |- _ => rewrite E end; cbn [ret].
    erewrite IH by eassumption; rewrite <- app_assoc; reflexivity.
Qed.
Lemma vec_map_throw {A St} (func : A -> M St A) l : forall k st e st' acc, calls_throw (fun x _ => func x) (enum_from k l) st e st' ->
  foldM (fun result element => let! y := func element in ret (result ++ [y])) l acc st = (Throw e, st').
Proof.
  induction l as [|x l IH]; intros k st e st' acc H; cbn [enum_from] in H; inversion H; subst; cbn [foldM]; unfold mbind at 1; unfold mbind; match goal with E : func x st = _ |- _ => rewrite E end; cbn [ret]; [reflexivity|].
  erewrite IH by eassumption; reflexivity.
Qed.
(** the function runs once per element, in order; its first exception ends the loop *)
Theorem C147_map :
  forall (A St : Type) (func : A -> M St A) (input : list A) (st : St),
  (forall ys st', calls (fun x _ => func x) (enum input) st ys st' -> vec_map func input st = (Ok ys, st') /\ length ys = length input) /\
  (forall e st', calls_throw (fun x _ => func x) (enum input) st e st' -> vec_map func input st = (Throw e, st')) /\
  (forall g : A -> A, vec_map (fun x => ret (g x)) input st = (Ok (map g input), st)).
Proof.
  intros A St func input st; split; [|split].
  - intros ys st' H; split; [apply (vec_map_acc func input _ st ys st' [] H)|].
    revert H; unfold enum; generalize 0 at 1; revert st ys; induction input as [|x l IH]; intros st ys k H; cbn [enum_from] in H; inversion H; subst; cbn [length]; [reflexivity|f_equal; eapply IH; eassumption].
  - intros e st' H; apply (vec_map_throw func input _ st e st' [] H).
  - intros g; unfold vec_map; assert (G : forall acc, foldM (fun result element => let! y := ret (g element) in ret (result ++ [y])) input acc st = (Ok (acc ++ map g input), st)); [|apply G].
    induction input as [|x l IH]; intros acc; cbn [foldM map]; [rewrite app_nil_r; reflexivity|]; unfold mbind at 1; cbn [mbind ret]; rewrite IH, <- app_assoc; reflexivity.
Qed.
Print Assumptions C147_map.

(** ** contains *)
Theorem C147_contains :
  forall (C : Type) (eqb : C -> C -> bool) (vec : list C) (item : C),
  vec_contains eqb vec item = true <-> exists x, In x vec /\ eqb x item = true.
Proof.
  intros C eqb vec item; unfold vec_contains; induction vec as [|x vec IH]; cbn [std_find]; [split; [discriminate|intros (x & [] & _)]|].
  destruct (eqb x item) eqn:E; [split; [intros _; exists x; split; [left; reflexivity|exact E]|reflexivity]|].
  assert (R : (exists y, In y (x :: vec) /\ eqb y item = true) <-> (exists y, In y vec /\ eqb y item = true)).
  { split; [intros (y & [<-|Hy] & Ey); [congruence|exists y; auto]|intros (y & Hy & Ey); exists y; split; [right; exact Hy|exact Ey]]. }
  rewrite R, <- IH; destruct (std_find eqb vec item); reflexivity.
Qed.
Print Assumptions C147_contains.
(** [std::find] stops at the first one *)
Theorem C147_find :
  forall (C : Type) (eqb : C -> C -> bool) (vec : list C) (item : C) i,
  std_find eqb vec item = Some i <-> exists x, nth_error vec i = Some x /\ eqb x item = true /\ forall j y, (j < i)%nat -> nth_error vec j = Some y -> eqb y item = false.
Proof.
  intros C eqb vec item; induction vec as [|x vec IH]; intros i; cbn [std_find].
  - split; [discriminate|intros (x & H & _); destruct i; discriminate H].
  - destruct (eqb x item) eqn:E.
    + split; [intros Q; injection Q as <-; exists x; split; [reflexivity|]; split; [exact E|]; intros j y Hj; lia|].
      intros (y & Hy & Ey & Hb); destruct i as [|i]; [reflexivity|]; rewrite (Hb 0%nat x ltac:(lia) eq_refl) in E; discriminate E.
    + destruct i as [|i].
      * split; [destruct (std_find eqb vec item); discriminate|intros (y & Hy & Ey & _); injection Hy as <-; congruence].
      * transitivity (std_find eqb vec item = Some i); [destruct (std_find eqb vec item); cbn [option_map]; split; congruence|]; rewrite IH.
        split; intros (y & Hy & Ey & Hb); exists y; (split; [exact Hy|]; split; [exact Ey|]).
        -- intros [|j] z Hj Hz; [injection Hz as <-; exact E|apply (Hb j); [lia|exact Hz]].
        -- intros j z Hj Hz; apply (Hb (S j)); [lia|exact Hz].
Qed.
Print Assumptions C147_find.
(** an element of a vector of doubles is not always contained in it *)
Theorem C147_contains_refuted :
  exists (vec : list F64) (x : F64), In x vec /\ vec_contains Beqb vec x = false.
Proof. exists [#1; f64_nan], f64_nan; split; [right; left; reflexivity|vm_compute; reflexivity]. Qed.
Print Assumptions C147_contains_refuted.

(** three Series, the last of which is shorter; a vector of doubles *)
Example C147_example :
  countsAndCheck [mk 1 (col [1; 2]) 3; mk 2 [[1; 2]; [3; 4]] 3; mk 1 (col [7]) 3] = Mismatch 2 2 1 /\
  countsAndCheck [mk 1 (col [1; 2]) 3; mk 2 [[1; 2]; [3; 4]] 3] = Counts [2; 2] /\
  vec_contains Beqb [#1; #2] #2 = true /\ vec_contains Beqb [#1; #2] #3 = false /\
  (exists s, toSerie 2 [1; 2; 3; 4; 5] 2 = Ok s /\ count s = 2 /\ dimension s = 3) /\
  calls (fun x _ => logging (fun y _ => y + 1) x 0) (enum [10; 20]) [] [11; 21] [(10, 0); (20, 0)].
Proof.
  split; [vm_compute; reflexivity|]; split; [vm_compute; reflexivity|]; split; [vm_compute; reflexivity|]; split; [vm_compute; reflexivity|]; split.
  - eexists; split; [reflexivity|]; split; reflexivity.
  - eapply calls_cons; [reflexivity|]; eapply calls_cons; [reflexivity|]; apply calls_nil.
Qed.
