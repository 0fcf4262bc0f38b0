(** * C61: weigthedSum. *)
From Verif Require Import Base Num Serie Spec BaseFacts SerieFacts Functional FunctionalFacts Mathf MathFacts F64 F64Facts RNum.
From Verif Require Import Props_Functional Props_AddSub.
From Coq Require Import Reals Lra.
Open Scope Z_scope.
#[local] Existing Instance F64N.
Opaque f64_of_Z.

(** component [c] of item [i] *)
Definition at2 {T} {NT : Num T} (t : list (list T)) (i c : nat) : T := nth c (nth i t []) n0.
(** 0 + t1*w1 + t2*w2 + ..., left to right, at one component *)
Definition combination {T} {NT : Num T} (tws : list (list (list T) * T)) (i c : nat) : T :=
  fold_left (fun acc tw => n_add acc (n_mul (at2 (fst tw) i c) (snd tw))) tws n0.

Section Loop.
  Context {T : Type} {NT : Num T}.

  Lemma rd_app_mid {A} (pre : list A) x post : rd (pre ++ x :: post) (Z.of_nat (length pre)) = Ok x.
  Proof. apply rd_nat; rewrite nth_error_app2, Nat.sub_diag by lia; reflexivity. Qed.

  Definition wrow (k : Z) (f : nat -> T) : list T := map f (seq 0 (Z.to_nat k)).
  Lemma len_wrow k f : 0 <= k -> len (wrow k f) = k.
  Proof. intros; unfold wrow; rewrite len_map; unfold len; rewrite seq_length; lia. Qed.
  Lemma nth_error_wrow k f c y : nth_error (wrow k f) c = Some y -> (c < Z.to_nat k)%nat /\ y = f c.
  Proof.
    unfold wrow; rewrite nth_error_map; destruct (nth_error (seq 0 (Z.to_nat k)) c) as [m|] eqn:E; [|discriminate].
    assert (Hc : (c < Z.to_nat k)%nat) by (pose proof (nth_error_lt _ _ _ E) as Q; rewrite seq_length in Q; exact Q).
    rewrite (nth_error_nth' _ O) in E by (rewrite seq_length; exact Hc); rewrite seq_nth in E by exact Hc.
    injection E as <-; intros Q; injection Q as <-; auto.
  Qed.

  Lemma wsum_loop k n (i : nat) : 0 <= k -> (Z.of_nat i < n) ->
    forall rest rt rw pre prew f,
    one_shape rest k n rt -> length rw = length rest -> length prew = length pre ->
    foldO (fun r j =>
             let* serie := rd (pre ++ rest) j in
             let* sv := value serie (Z.of_nat i) in
             let* a := rd (prew ++ rw) j in
             upd_each k (fun k x => let* y := rd sv k in Ok (n_add x (n_mul y a))) r)
      (seqZ (length pre) (length rest)) (wrow k f)
    = Ok (wrow k (fun c => fold_left (fun acc tw => n_add acc (n_mul (at2 (fst tw) i c) (snd tw))) (combine rt rw) (f c))).
  Proof.
    intros Hk Hi; induction rest as [|s rest IH]; intros rt rw pre prew f Hs Hw Hp.
    - inversion Hs; subst; destruct rw; [|discriminate]; reflexivity.
    - inversion Hs as [|? t ? rt' [Ht Hl] Hs']; subst; destruct rw as [|w rw]; [discriminate|].
      simpl length; rewrite seqZ_S; cbn [foldO].
      rewrite rd_app_mid; cbn [obind].
      destruct (nth_error_len t i) as [v Hv]; [unfold len in Hi; lia|].
      rewrite (value_nth _ _ _ _ _ Ht Hv); cbn [obind].
      replace (rd (prew ++ w :: rw) (Z.of_nat (length pre))) with (Ok w) by (rewrite <- Hp, rd_app_mid; reflexivity); cbn [obind].
      pose proof (rows_nth_len _ _ _ _ (repr_rows _ _ _ Ht) Hv) as Lv.
      assert (U : upd_each k (fun k0 x => let* y := rd v k0 in Ok (n_add x (n_mul y w))) (wrow k f)
                  = Ok (wrow k (fun c => n_add (f c) (n_mul (at2 t i c) w)))).
      { rewrite <- (len_wrow k f Hk) at 1.
        pose proof (len_wrow k f Hk) as L1; pose proof (len_wrow k (fun c => n_add (f c) (n_mul (at2 t i c) w)) Hk) as L2.
        apply upd_each_ok; [unfold len in *; lia|].
        intros c x y Hx Hy; apply nth_error_wrow in Hx, Hy; destruct Hx as [Hc ->]; destruct Hy as [_ ->].
        assert (Hcv : nth_error v c = Some (nth c v n0)) by (apply nth_error_nth'; unfold len in Lv; lia).
        rewrite (rd_nat _ _ _ Hcv); cbn [obind]; unfold at2; rewrite (nth_error_nth t i [] Hv); reflexivity. }
      rewrite U; cbn [obind].
      specialize (IH rt' rw (pre ++ [s]) (prew ++ [w]) (fun c => n_add (f c) (n_mul (at2 t i c) w)) Hs').
      rewrite !app_length in IH; simpl length in IH; rewrite !Nat.add_1_r, <- !app_assoc in IH.
      apply IH; [simpl in Hw; lia|lia].
  Qed.
End Loop.

Theorem C61_weighted_sum :
  forall (T : Type) (NT : Num T) (ss : list (Serie T)) k n tables ws,
  one_shape ss k n tables -> ss <> [] -> len ws = len ss -> 1 <= n -> 1 <= k ->
  exists rows,
    weigthedSum ss ws = Ok (mk k rows 3) /\ len rows = n /\ rows_of_size k rows /\
    forall i c, Z.of_nat i < n -> Z.of_nat c < k -> at2 rows i c = combination (combine tables ws) i c.
Proof.
  intros T NT ss k n tables ws H Hne Hw Hn Hk.
  destruct ss as [|s0 ss]; [congruence|]; inversion H as [|? t0 ? ts [H0 L0] Hr]; subst.
  assert (Hb : k < 2147483648) by (unfold repr in H0; lia).
  set (N := len t0) in *.
  set (rows := map (fun i => wrow k (combination (combine (t0 :: ts) ws) i)) (seq 0 (Z.to_nat N))).
  assert (Lrows : length rows = length t0) by (unfold rows, N, len; rewrite map_length, seq_length; lia).
  assert (Nth : forall j y, nth_error rows j = Some y -> (j < length t0)%nat /\ y = wrow k (combination (combine (t0 :: ts) ws) j)).
  { intros j y; unfold rows; rewrite nth_error_map; destruct (nth_error (seq 0 (Z.to_nat N)) j) as [m|] eqn:E; [|discriminate].
    assert (Hc : (j < Z.to_nat N)%nat) by (pose proof (nth_error_lt _ _ _ E) as Q; rewrite seq_length in Q; exact Q).
    rewrite (nth_error_nth' _ O) in E by (rewrite seq_length; exact Hc); rewrite seq_nth in E by exact Hc.
    injection E as <-; intros Q; injection Q as <-; split; [unfold N, len in Hc; lia|reflexivity]. }
  exists rows; split; [|split; [|split]].
  - unfold weigthedSum; rewrite Hw, Z.eqb_refl; cbn [negb].
    rewrite (proj2 (forallb_forall _ (s0 :: ss))).
    2:{ intros s Hs; rewrite (repr_count _ _ _ H0), (repr_itemSize _ _ _ H0).
        assert (Q : forall l tl, one_shape l k N tl -> In s l -> (count s =? N) && (itemSize s =? k) = true).
        { clear; induction 1 as [|s1 t1 l tl [H1 L1] Hl IH]; intros Hs; [destruct Hs|]; destruct Hs as [->|Hs]; [|apply IH; exact Hs].
          rewrite (repr_count _ _ _ H1), (repr_itemSize _ _ _ H1), L1, !Z.eqb_refl; reflexivity. }
        apply (Q _ _ H Hs). }
    rewrite (repr_itemSize _ _ _ H0).
    apply (run_map_vv _ s0 k t0); auto; [intros ->; unfold N in Hn; change (len (@nil (list T))) with 0 in Hn; lia| |].
    + apply Forall_forall; intros y Hy; apply In_nth_error in Hy; destruct Hy as [j Hj]; apply Nth in Hj.
      destruct Hj as [_ ->]; apply len_wrow; lia.
    + intros j r y Hj Hy; apply Nth in Hy; destruct Hy as [Hlt ->]; unfold lift; f_equal.
      rewrite iota_len.
      assert (C : createArray k (@n0 T NT) = wrow k (fun _ => n0)).
      { unfold createArray, replicate, wrow; generalize (Z.to_nat k) as m, 0%nat as a.
        induction m as [|m IH]; intros a; simpl; [reflexivity|]; f_equal; apply IH. }
      rewrite C.
      apply (wsum_loop k N j ltac:(lia) ltac:(unfold N, len; lia) (s0 :: ss) (t0 :: ts) ws [] [] (fun _ => n0) H);
        [unfold len in Hw; lia|reflexivity].
  - unfold len; rewrite Lrows; reflexivity.
  - apply Forall_forall; intros y Hy; apply In_nth_error in Hy; destruct Hy as [j Hj]; apply Nth in Hj.
    destruct Hj as [_ ->]; apply len_wrow; lia.
  - intros i c Hi Hc; unfold at2 at 1.
    assert (Hi' : (i < length t0)%nat) by (unfold N, len in Hi; lia).
    destruct (nth_error_len rows i) as [y Hy]; [lia|]; rewrite (nth_error_nth rows i [] Hy).
    apply Nth in Hy; destruct Hy as [_ ->]; unfold wrow.
    rewrite (nth_indep _ n0 (combination (combine (t0 :: ts) ws) i O)) by (rewrite map_length, seq_length; lia).
    rewrite map_nth, seq_nth by lia; reflexivity.
Qed.
Print Assumptions C61_weighted_sum.

Theorem C61_shapes :
  forall (T : Type) (NT : Num T) (ss : list (Serie T)) ws,
  len ss <> len ws \/
  (exists s0 s, In s ss /\ hd_error ss = Some s0 /\ (count s <> count s0 \/ itemSize s <> itemSize s0)) ->
  weigthedSum ss ws = Throw InvalidArgument.
Proof.
  intros T NT ss ws H; unfold weigthedSum.
  destruct (Z.eqb_spec (len ss) (len ws)) as [E|E]; [|reflexivity]; cbn [negb].
  destruct H as [H|(s0 & s & Hin & Hh & Hd)]; [congruence|].
  destruct ss as [|s1 ss]; [destruct Hin|]; simpl in Hh; injection Hh as ->.
  match goal with |- context [forallb ?f (s0 :: ss)] => destruct (forallb f (s0 :: ss)) eqn:Ef end; [|reflexivity].
  rewrite forallb_forall in Ef; specialize (Ef s Hin); apply andb_prop in Ef; destruct Ef as [A B].
  apply Z.eqb_eq in A, B; destruct Hd; congruence.
Qed.
Print Assumptions C61_shapes.

(** in exact arithmetic the combination is linear in the weights and in the Series *)
Lemma fold_shift (l : list (list (list R) * R)) i c a :
  fold_left (fun acc tw => (acc + @at2 R r_num (fst tw) i c * snd tw)%R) l a
  = (a + @combination R r_num l i c)%R.
Proof.
  unfold combination; revert a; cbn [n_add n_mul n0 n_of_Z r_num].
  change (@n0 R r_num) with 0%R.
  induction l as [|tw l IH]; intros a; simpl; [lra|].
  rewrite (IH (a + _)%R), (IH (0 + _)%R); lra.
Qed.
Lemma combination_cons t w l i c :
  @combination R r_num ((t, w) :: l) i c = (@at2 R r_num t i c * w + @combination R r_num l i c)%R.
Proof.
  unfold combination at 1; cbn [fold_left n_add n_mul r_num fst snd]; rewrite fold_shift; change (@n0 R r_num) with 0%R; lra.
Qed.

Theorem C61_linear :
  forall (ss ss' ss'' : list (Serie R)) k n tables tables' tables'' (ws ws' : list R) (a b : R) d d1 d2 rows rows1 rows2 i c,
  one_shape ss k n tables -> one_shape ss' k n tables' -> one_shape ss'' k n tables'' ->
  ss <> [] -> len ws = len ss -> len ws' = len ss -> len ss' = len ss -> len ss'' = len ss ->
  1 <= n -> 1 <= k -> Z.of_nat i < n -> Z.of_nat c < k ->
  repr d k rows -> repr d1 k rows1 -> repr d2 k rows2 ->
  (* linear in the weights *)
  (@weigthedSum R r_num ss (map2 (fun w w' => (a * w + b * w')%R) ws ws') = Ok d ->
   @weigthedSum R r_num ss ws = Ok d1 -> @weigthedSum R r_num ss ws' = Ok d2 ->
   @at2 R r_num rows i c = (a * @at2 R r_num rows1 i c + b * @at2 R r_num rows2 i c)%R) /\
  (* linear in the Series *)
  (Forall2 (fun t tt => @at2 R r_num t i c = (a * @at2 R r_num (fst tt) i c + b * @at2 R r_num (snd tt) i c)%R)
     tables'' (combine tables tables') ->
   @weigthedSum R r_num ss'' ws = Ok d ->
   @weigthedSum R r_num ss ws = Ok d1 -> @weigthedSum R r_num ss' ws = Ok d2 ->
   @at2 R r_num rows i c = (a * @at2 R r_num rows1 i c + b * @at2 R r_num rows2 i c)%R).
Proof.
  intros ss ss' ss'' k n tables tables' tables'' ws ws' a b d d1 d2 rows rows1 rows2 i c
    H H' H'' Hne Lw Lw' Ls' Ls'' Hn Hk Hi Hc Rd R1 R2.
  assert (Inj : forall l tl v e rs, one_shape l k n tl -> l <> [] -> len v = len l -> repr e k rs ->
            @weigthedSum R r_num l v = Ok e -> @at2 R r_num rs i c = @combination R r_num (combine tl v) i c).
  { intros l tl v e rs Hl Hnl Hv Re E; destruct (C61_weighted_sum R r_num l k n tl v Hl Hnl Hv Hn Hk) as (rs' & E' & L' & R' & V').
    rewrite E in E'; injection E' as ->.
    assert (Hl0 : exists (s0 : Serie R) t0, repr s0 k t0 /\ len t0 = n).
    { destruct Hl as [|s0 t0 ? ? [A B] _]; [congruence|]; eauto. }
    destruct Hl0 as (s0 & t0 & R0 & L0).
    assert (Rr' : repr (mk k rs' 3) k rs') by (apply repr_mk; auto; unfold repr in R0; rewrite ?L', <- ?L0; tauto).
    destruct (repr_fun _ _ _ _ _ Re Rr') as [_ ->]; apply V'; assumption. }
  assert (Lt : forall (l : list (Serie R)) tl, one_shape l k n tl -> len tl = len l).
  { clear; induction 1; [reflexivity|]; rewrite !len_cons; congruence. }
  assert (Hnl : forall l : list (Serie R), len l = len ss -> l <> []).
  { intros l Hl ->; destruct ss; [congruence|]; rewrite len_cons in Hl; pose proof (len_nonneg ss); change (len (@nil (Serie R))) with 0 in Hl; lia. }
  split.
  - intros E E1 E2.
    assert (Lm : len (map2 (fun w w' => (a * w + b * w')%R) ws ws') = len ss) by (rewrite len_map2; congruence).
    rewrite (Inj _ _ _ _ _ H Hne Lm Rd E), (Inj _ _ _ _ _ H Hne Lw R1 E1), (Inj _ _ _ _ _ H Hne Lw' R2 E2).
    pose proof (Lt _ _ H) as Lts; rewrite <- Lts in Lw, Lw'; clear -Lw Lw'.
    revert ws ws' Lw Lw'; induction tables as [|t tables IH]; intros [|w ws] [|w' ws'] Lw Lw';
      rewrite ?len_cons in *; try (pose proof (len_nonneg tables)); try (pose proof (len_nonneg ws)); try (pose proof (len_nonneg ws'));
      try (change (len (@nil R)) with 0 in *); try (change (len (@nil (list (list R)))) with 0 in *); try lia.
    + unfold combination; simpl; change (@n0 R r_num) with 0%R; lra.
    + cbn [map2 combine]; rewrite !combination_cons, (IH ws ws') by lia; lra.
  - intros HF E E1 E2.
    rewrite (Inj _ _ _ _ _ H'' (Hnl _ Ls'') (eq_trans Lw (eq_sym Ls'')) Rd E), (Inj _ _ _ _ _ H Hne Lw R1 E1),
      (Inj _ _ _ _ _ H' (Hnl _ Ls') (eq_trans Lw (eq_sym Ls')) R2 E2).
    pose proof (Lt _ _ H) as L1; pose proof (Lt _ _ H') as L2; pose proof (Lt _ _ H'') as L3.
    assert (Q1 : length tables = length tables') by (unfold len in *; lia).
    assert (Q2 : length tables = length ws) by (unfold len in *; lia).
    clear -HF Q1 Q2; revert tables' tables'' ws HF Q1 Q2; induction tables as [|t tables IH]; intros [|t' tables'] tables'' [|w ws] HF Q1 Q2;
      simpl in Q1, Q2; try discriminate.
    + inversion HF; subst; unfold combination; simpl; change (@n0 R r_num) with 0%R; lra.
    + cbn [combine] in HF; inversion HF as [|t3 ? tables3 ? Et Ht]; subst; cbn [fst snd] in Et.
      cbn [combine]; rewrite !combination_cons, Et, (IH tables' tables3 ws Ht) by lia; lra.
Qed.
Print Assumptions C61_linear.

Example C61_ex :
  let a := mk 2 [[#1; #2]] 3 in let b := mk 2 [[#3; #4]] 3 in
  one_shape [a; b] 2 1 [[[#1; #2]]; [[#3; #4]]] /\
  weigthedSum [a; b] [#5; #6] = Ok (mk 2 [[#0 [+] #1 [*] #5 [+] #3 [*] #6; #0 [+] #2 [*] #5 [+] #4 [*] #6]] 3)%num /\
  weigthedSum [a; b] [#5] = Throw InvalidArgument /\ weigthedSum [a; mk 1 [[#1]] 3] [#5; #6] = Throw InvalidArgument.
Proof.
  split; [repeat (constructor; [split; [repr_ex|reflexivity]|]); constructor|].
  repeat split; reflexivity.
Qed.
