(** * Lemmas on Jacobi's method: generic in the numbers. *)
From Verif Require Import Base Num Serie Spec BaseFacts SerieFacts Functional FunctionalFacts Mathf MathFacts MinMaxFacts OrderFacts AlgebraFacts Eigen.
From Coq Require Import Reals Lra Permutation Sorted.
Open Scope Z_scope.

Ltac ecompute := cbv -[n_add n_mul n_sub n_div n_opp n_abs n_sqrt n_sin n_cos n_atan n_pi n_ltb n_eqb n_of_Z angle].
Ltac ecompute_in H := cbv -[n_add n_mul n_sub n_div n_opp n_abs n_sqrt n_sin n_cos n_atan n_pi n_ltb n_eqb n_of_Z angle] in H.

Section Generic.
  Context {T : Type} {NT : Num T}.

  Lemma pair2 (a0 a1 a2 v0 v1 v2 v3 thr t : T) :
    pair_step 2 t (([a0; a1; a2], [v0; v1; v2; v3]), thr) 1 2 =
    if n_ltb (n_mul a1 a1) t then Ok (([a0; a1; a2], [v0; v1; v2; v3]), thr)
    else
      let x := angle a1 a0 a2 in let c := n_cos x in let s := n_sin x in
      let x2 := n_add (n_mul a1 (n_mul s c)) (n_mul a1 (n_mul s c)) in
      Ok (([n_sub (n_add (n_mul a0 (n_mul c c)) (n_mul a2 (n_mul s s))) x2; n_of_Z 0; n_add (n_add (n_mul a0 (n_mul s s)) (n_mul a2 (n_mul c c))) x2],
           [n_sub (n_mul c v0) (n_mul s v2); n_sub (n_mul c v1) (n_mul s v3); n_add (n_mul s v0) (n_mul c v2); n_add (n_mul s v1) (n_mul c v3)]),
          n_abs (n_sub thr (n_mul a1 a1))).
  Proof. ecompute; destruct (n_ltb (n_mul a1 a1) t); reflexivity. Qed.
  Lemma pair3_12 (a0 a1 a2 a3 a4 a5 v0 v1 v2 v3 v4 v5 v6 v7 v8 thr t : T) :
    pair_step 3 t (([a0; a1; a2; a3; a4; a5], [v0; v1; v2; v3; v4; v5; v6; v7; v8]), thr) 1 2 =
    if n_ltb (n_mul a1 a1) t then Ok (([a0; a1; a2; a3; a4; a5], [v0; v1; v2; v3; v4; v5; v6; v7; v8]), thr)
    else
      let x := angle a1 a0 a2 in let c := n_cos x in let s := n_sin x in
      let x2 := n_add (n_mul a1 (n_mul s c)) (n_mul a1 (n_mul s c)) in
      Ok (([n_sub (n_add (n_mul a0 (n_mul c c)) (n_mul a2 (n_mul s s))) x2; n_of_Z 0; n_add (n_add (n_mul a0 (n_mul s s)) (n_mul a2 (n_mul c c))) x2;
            n_sub (n_mul a3 c) (n_mul a4 s); n_add (n_mul a3 s) (n_mul a4 c); a5],
           [n_sub (n_mul c v0) (n_mul s v3); n_sub (n_mul c v1) (n_mul s v4); n_sub (n_mul c v2) (n_mul s v5);
            n_add (n_mul s v0) (n_mul c v3); n_add (n_mul s v1) (n_mul c v4); n_add (n_mul s v2) (n_mul c v5); v6; v7; v8]),
          n_abs (n_sub thr (n_mul a1 a1))).
  Proof. ecompute; destruct (n_ltb (n_mul a1 a1) t); reflexivity. Qed.
  Lemma pair3_13 (a0 a1 a2 a3 a4 a5 v0 v1 v2 v3 v4 v5 v6 v7 v8 thr t : T) :
    pair_step 3 t (([a0; a1; a2; a3; a4; a5], [v0; v1; v2; v3; v4; v5; v6; v7; v8]), thr) 1 3 =
    if n_ltb (n_mul a3 a3) t then Ok (([a0; a1; a2; a3; a4; a5], [v0; v1; v2; v3; v4; v5; v6; v7; v8]), thr)
    else
      let x := angle a3 a0 a5 in let c := n_cos x in let s := n_sin x in
      let x2 := n_add (n_mul a3 (n_mul s c)) (n_mul a3 (n_mul s c)) in
      Ok (([n_sub (n_add (n_mul a0 (n_mul c c)) (n_mul a5 (n_mul s s))) x2; n_sub (n_mul a1 c) (n_mul a4 s); a2; n_of_Z 0; n_add (n_mul a1 s) (n_mul a4 c);
            n_add (n_add (n_mul a0 (n_mul s s)) (n_mul a5 (n_mul c c))) x2],
           [n_sub (n_mul c v0) (n_mul s v6); n_sub (n_mul c v1) (n_mul s v7); n_sub (n_mul c v2) (n_mul s v8); v3; v4; v5;
            n_add (n_mul s v0) (n_mul c v6); n_add (n_mul s v1) (n_mul c v7); n_add (n_mul s v2) (n_mul c v8)]),
          n_abs (n_sub thr (n_mul a3 a3))).
  Proof. ecompute; destruct (n_ltb (n_mul a3 a3) t); reflexivity. Qed.
  Lemma pair3_23 (a0 a1 a2 a3 a4 a5 v0 v1 v2 v3 v4 v5 v6 v7 v8 thr t : T) :
    pair_step 3 t (([a0; a1; a2; a3; a4; a5], [v0; v1; v2; v3; v4; v5; v6; v7; v8]), thr) 2 3 =
    if n_ltb (n_mul a4 a4) t then Ok (([a0; a1; a2; a3; a4; a5], [v0; v1; v2; v3; v4; v5; v6; v7; v8]), thr)
    else
      let x := angle a4 a2 a5 in let c := n_cos x in let s := n_sin x in
      let x2 := n_add (n_mul a4 (n_mul s c)) (n_mul a4 (n_mul s c)) in
      Ok (([a0; n_sub (n_mul a1 c) (n_mul a3 s); n_sub (n_add (n_mul a2 (n_mul c c)) (n_mul a5 (n_mul s s))) x2; n_add (n_mul a1 s) (n_mul a3 c); n_of_Z 0;
            n_add (n_add (n_mul a2 (n_mul s s)) (n_mul a5 (n_mul c c))) x2],
           [v0; v1; v2; n_sub (n_mul c v3) (n_mul s v6); n_sub (n_mul c v4) (n_mul s v7); n_sub (n_mul c v5) (n_mul s v8);
            n_add (n_mul s v3) (n_mul c v6); n_add (n_mul s v4) (n_mul c v7); n_add (n_mul s v5) (n_mul c v8)]),
          n_abs (n_sub thr (n_mul a4 a4))).
  Proof. ecompute; destruct (n_ltb (n_mul a4 a4) t); reflexivity. Qed.

  (** the lists of a state have the right length *)
  Definition shaped (n : Z) (st : @jacobi_state T) : Prop := len (fst (fst st)) = n * (n + 1) / 2 /\ len (snd (fst st)) = n * n.

  Lemma sweep2 st : sweep 2 st = let* s1 := pair_step 2 (n_div (snd st) (n_of_Z 3)) st 1 2 in Ok s1.
  Proof. unfold sweep; change (iota_from 1 2) with [1]; cbn [foldO]; change (iota_from (1 + 1) (2 + 1)) with [2]; cbn [foldO].
    change (2 * (2 + 1) / 2) with 3; destruct (pair_step 2 (n_div (snd st) (n_of_Z 3)) st 1 2); reflexivity. Qed.
  Lemma sweep3 st : sweep 3 st =
    let t := n_div (snd st) (n_of_Z 6) in
    let* s1 := pair_step 3 t st 1 2 in let* s2 := pair_step 3 t s1 1 3 in let* s3 := pair_step 3 t s2 2 3 in Ok s3.
  Proof.
    unfold sweep; change (iota_from 1 3) with [1; 2]; cbn [foldO]; change (iota_from (1 + 1) (3 + 1)) with [2; 3]; change (iota_from (2 + 1) (3 + 1)) with [3]; cbn [foldO].
    change (3 * (3 + 1) / 2) with 6; cbv zeta; destruct (pair_step 3 (n_div (snd st) (n_of_Z 6)) st 1 2) as [s1| |]; cbn [obind]; try reflexivity.
    destruct (pair_step 3 (n_div (snd st) (n_of_Z 6)) s1 1 3) as [s2| |]; cbn [obind]; try reflexivity.
    destruct (pair_step 3 (n_div (snd st) (n_of_Z 6)) s2 2 3) as [s3| |]; reflexivity.
  Qed.

  Lemma shaped2 st : shaped 2 st -> exists a0 a1 a2 v0 v1 v2 v3 thr, st = (([a0; a1; a2], [v0; v1; v2; v3]), thr).
  Proof.
    destruct st as [[a v] thr]; intros [La Lv]; cbn [fst snd] in La, Lv; change (2 * (2 + 1) / 2) with 3 in La; change (2 * 2) with 4 in Lv.
    destruct (len3 a La) as (? & ? & ? & ->); destruct (len4 v Lv) as (? & ? & ? & ? & ->); do 8 eexists; reflexivity.
  Qed.
  Lemma shaped3 st : shaped 3 st -> exists a0 a1 a2 a3 a4 a5 v0 v1 v2 v3 v4 v5 v6 v7 v8 thr,
    st = (([a0; a1; a2; a3; a4; a5], [v0; v1; v2; v3; v4; v5; v6; v7; v8]), thr).
  Proof.
    destruct st as [[a v] thr]; intros [La Lv]; cbn [fst snd] in La, Lv; change (3 * (3 + 1) / 2) with 6 in La; change (3 * 3) with 9 in Lv.
    destruct (len6 a La) as (? & ? & ? & ? & ? & ? & ->); destruct (len9 v Lv) as (? & ? & ? & ? & ? & ? & ? & ? & ? & ->); do 16 eexists; reflexivity.
  Qed.

  Lemma pair_shaped n l m t st : (n = 2 /\ l = 1 /\ m = 2) \/ (n = 3 /\ (l = 1 /\ m = 2 \/ l = 1 /\ m = 3 \/ l = 2 /\ m = 3)) -> shaped n st ->
    exists st', pair_step n t st l m = Ok st' /\ shaped n st'.
  Proof.
    intros [(-> & -> & ->)|(-> & H)] Sh.
    - destruct (shaped2 st Sh) as (a0 & a1 & a2 & v0 & v1 & v2 & v3 & thr & ->); rewrite pair2.
      destruct (n_ltb (n_mul a1 a1) t); eexists; (split; [reflexivity|split; reflexivity]).
    - destruct (shaped3 st Sh) as (a0 & a1 & a2 & a3 & a4 & a5 & v0 & v1 & v2 & v3 & v4 & v5 & v6 & v7 & v8 & thr & ->).
      destruct H as [[-> ->]|[[-> ->]|[-> ->]]]; [rewrite pair3_12|rewrite pair3_13|rewrite pair3_23]; destruct (n_ltb _ t); eexists; (split; [reflexivity|split; reflexivity]).
  Qed.
  Lemma sweep_shaped n st : n = 2 \/ n = 3 -> shaped n st -> exists st', sweep n st = Ok st' /\ shaped n st'.
  Proof.
    intros [-> | ->] Sh.
    - rewrite sweep2; destruct (pair_shaped 2 1 2 (n_div (snd st) (n_of_Z 3)) st ltac:(lia) Sh) as (s1 & E & S1); rewrite E; cbn [obind]; eauto.
    - rewrite sweep3; cbv zeta; set (t := n_div (snd st) (n_of_Z 6)).
      destruct (pair_shaped 3 1 2 t st ltac:(lia) Sh) as (s1 & E1 & S1); rewrite E1; cbn [obind].
      destruct (pair_shaped 3 1 3 t s1 ltac:(lia) S1) as (s2 & E2 & S2); rewrite E2; cbn [obind].
      destruct (pair_shaped 3 2 3 t s2 ltac:(lia) S2) as (s3 & E3 & S3); rewrite E3; cbn [obind]; eauto.
  Qed.
  Lemma sweeps_shaped n bound left : n = 2 \/ n = 3 -> forall done st, shaped n st -> exists st' d, sweeps n bound left done st = Ok (st', d) /\ shaped n st'.
  Proof.
    intros Hn; induction left as [|left IH]; intros done st Sh; cbn [sweeps]; [eauto|].
    destruct (n_ltb bound (snd st)); [|eauto]; destruct (sweep_shaped n st Hn Sh) as (s1 & E & S1); rewrite E; cbn [obind]; apply IH; exact S1.
  Qed.

  Lemma off_norm2 a0 a1 a2 : off_norm 2 [a0; a1; a2] = Ok (n_add (n_of_Z 0) (n_mul a1 a1)).
  Proof. reflexivity. Qed.
  Lemma off_norm3 a0 a1 a2 a3 a4 a5 : off_norm 3 [a0; a1; a2; a3; a4; a5] =
    Ok (n_add (n_add (n_add (n_of_Z 0) (n_mul a1 a1)) (n_mul a3 a3)) (n_mul a4 a4)).
  Proof. reflexivity. Qed.

  (** the source on matrices of the two sizes *)
  Lemma jacobi2 a0 a1 a2 : jacobi 2 [a0; a1; a2] =
    let nrm := n_add (n_of_Z 0) (n_mul a1 a1) in
    if negb (n_eqb nrm (n_of_Z 0)) then sweeps 2 (n_mul nrm eps) 100 0 (([a0; a1; a2], identity 2), nrm) else Ok ((([a0; a1; a2], identity 2), nrm), 0).
  Proof. reflexivity. Qed.
  Lemma jacobi3 a0 a1 a2 a3 a4 a5 : jacobi 3 [a0; a1; a2; a3; a4; a5] =
    let nrm := n_add (n_add (n_add (n_of_Z 0) (n_mul a1 a1)) (n_mul a3 a3)) (n_mul a4 a4) in
    if negb (n_eqb nrm (n_of_Z 0)) then sweeps 3 (n_mul nrm eps) 100 0 (([a0; a1; a2; a3; a4; a5], identity 3), nrm)
    else Ok ((([a0; a1; a2; a3; a4; a5], identity 3), nrm), 0).
  Proof. reflexivity. Qed.
  Lemma jacobi_total n mat : n = 2 \/ n = 3 -> len mat = n * (n + 1) / 2 -> exists st d, jacobi n mat = Ok (st, d) /\ shaped n st.
  Proof.
    intros [-> | ->] L.
    - destruct (len3 mat L) as (a0 & a1 & a2 & ->); rewrite jacobi2; cbv zeta.
      destruct (negb _); [apply sweeps_shaped; [lia|split; reflexivity]|do 2 eexists; split; [reflexivity|split; reflexivity]].
    - destruct (len6 mat L) as (a0 & a1 & a2 & a3 & a4 & a5 & ->); rewrite jacobi3; cbv zeta.
      destruct (negb _); [apply sweeps_shaped; [lia|split; reflexivity]|do 2 eexists; split; [reflexivity|split; reflexivity]].
  Qed.

  (** ** The sort *)
  (** [p] lists the places of the sorted values *)
  Definition sorts (n : nat) (ev ev' : list T) (p : list nat) : Prop :=
    Permutation p (seq 0 n) /\ sort_eigen (Z.of_nat n) ev = Ok (ev', map Z.of_nat p) /\ map Some ev' = map (nth_error ev) p.

  Lemma sort2_ok e0 e1 : sort_eigen 2 [e0; e1] = if n_ltb e0 e1 then Ok ([e1; e0], [1; 0]) else Ok ([e0; e1], [0; 1]).
  Proof. ecompute; destruct (n_ltb e0 e1); reflexivity. Qed.
  Lemma sort3_ok e0 e1 e2 : sort_eigen 3 [e0; e1; e2] =
    if n_ltb e0 e1 then
      if n_ltb e1 e2 then (if n_ltb e1 e0 then Ok ([e2; e0; e1], [2; 0; 1]) else Ok ([e2; e1; e0], [2; 1; 0]))
      else (if n_ltb e0 e2 then Ok ([e1; e2; e0], [1; 2; 0]) else Ok ([e1; e0; e2], [1; 0; 2]))
    else
      if n_ltb e0 e2 then (if n_ltb e1 e0 then Ok ([e2; e0; e1], [2; 0; 1]) else Ok ([e2; e1; e0], [2; 1; 0]))
      else (if n_ltb e1 e2 then Ok ([e0; e2; e1], [0; 2; 1]) else Ok ([e0; e1; e2], [0; 1; 2])).
  Proof.
    ecompute; destruct (n_ltb e0 e1); [destruct (n_ltb e1 e2)|destruct (n_ltb e0 e2)].
    - destruct (n_ltb e1 e0); reflexivity.
    - destruct (n_ltb e0 e2); reflexivity.
    - destruct (n_ltb e1 e0); reflexivity.
    - destruct (n_ltb e1 e2); reflexivity.
  Qed.

  Ltac perm := first
    [ exact (Permutation_refl _) | exact (perm_swap _ _ _)
    | (apply NoDup_Permutation; [repeat constructor; cbn; intuition discriminate|apply seq_NoDup|intros x; cbn; intuition lia]) ].
  Lemma sort2_sorts e0 e1 : exists ev' p, sorts 2 [e0; e1] ev' p.
  Proof.
    unfold sorts; change (Z.of_nat 2) with 2; rewrite sort2_ok; destruct (n_ltb e0 e1);
      [exists [e1; e0], [1%nat; 0%nat]|exists [e0; e1], [0%nat; 1%nat]]; (split; [perm|split; reflexivity]).
  Qed.
  Lemma sort3_sorts e0 e1 e2 : exists ev' p, sorts 3 [e0; e1; e2] ev' p.
  Proof.
    unfold sorts; change (Z.of_nat 3) with 3; rewrite sort3_ok.
    destruct (n_ltb e0 e1); [destruct (n_ltb e1 e2); [destruct (n_ltb e1 e0)|destruct (n_ltb e0 e2)]|destruct (n_ltb e0 e2); [destruct (n_ltb e1 e0)|destruct (n_ltb e1 e2)]].
    - exists [e2; e0; e1], [2%nat; 0%nat; 1%nat]; split; [perm|split; reflexivity].
    - exists [e2; e1; e0], [2%nat; 1%nat; 0%nat]; split; [perm|split; reflexivity].
    - exists [e1; e2; e0], [1%nat; 2%nat; 0%nat]; split; [perm|split; reflexivity].
    - exists [e1; e0; e2], [1%nat; 0%nat; 2%nat]; split; [perm|split; reflexivity].
    - exists [e2; e0; e1], [2%nat; 0%nat; 1%nat]; split; [perm|split; reflexivity].
    - exists [e2; e1; e0], [2%nat; 1%nat; 0%nat]; split; [perm|split; reflexivity].
    - exists [e0; e2; e1], [0%nat; 2%nat; 1%nat]; split; [perm|split; reflexivity].
    - exists [e0; e1; e2], [0%nat; 1%nat; 2%nat]; split; [perm|split; reflexivity].
  Qed.

  (** decreasing *)
  Lemma sort_decreasing (good : T -> Prop) (key : T -> R) n ev ev' idx : ordered_by good key -> n = 2 \/ n = 3 -> len ev = n ->
    sort_eigen n ev = Ok (ev', idx) -> Forall good ev' -> StronglySorted (fun x y => (key y <= key x)%R) ev'.
  Proof.
    intros Hord [-> | ->] L E G.
    - destruct (len2 ev L) as (e0 & e1 & ->); rewrite sort2_ok in E.
      assert (Gs : good e0 /\ good e1).
      { destruct (n_ltb e0 e1); injection E as <- _; inversion G as [|? ? G0 G']; inversion G'; auto. }
      destruct Gs as [G0 G1]; rewrite (keyed_ltb good key Hord e0 e1 G0 G1) in E.
      destruct (Rlt_dec (key e0) (key e1)); injection E as <- _; repeat first [apply SSorted_nil|apply SSorted_cons|apply Forall_nil|apply Forall_cons]; lra.
    - destruct (len3 ev L) as (e0 & e1 & e2 & ->); rewrite sort3_ok in E.
      assert (Gs : good e0 /\ good e1 /\ good e2).
      { destruct (n_ltb e0 e1); [destruct (n_ltb e1 e2); [destruct (n_ltb e1 e0)|destruct (n_ltb e0 e2)]|destruct (n_ltb e0 e2); [destruct (n_ltb e1 e0)|destruct (n_ltb e1 e2)]];
          injection E as <- _; inversion G as [|? ? G0 G']; inversion G' as [|? ? G1 G'']; inversion G''; auto. }
      destruct Gs as (G0 & G1 & G2); rewrite (keyed_ltb good key Hord e0 e1 G0 G1), (keyed_ltb good key Hord e1 e2 G1 G2),
        (keyed_ltb good key Hord e0 e2 G0 G2), (keyed_ltb good key Hord e1 e0 G1 G0) in E.
      destruct (Rlt_dec (key e0) (key e1)), (Rlt_dec (key e1) (key e2)), (Rlt_dec (key e0) (key e2)), (Rlt_dec (key e1) (key e0));
        injection E as <- _; repeat first [apply SSorted_nil|apply SSorted_cons|apply Forall_nil|apply Forall_cons]; lra.
  Qed.

  (** ** The whole of symmetricEigen *)
  Definition diagonal (n : Z) (a : list T) : outcome (list T) := mapO (fun i => rd a (i + (i * (i + 1)) / 2)) (iota n).
  (** rows of the flat list [v] in the order [p] *)
  Definition rows_at (n : nat) (v : list T) (p : list nat) : list (list T) := map (fun k => firstn n (skipn (k * n) v)) p.

  Lemma symmetric_ok n mat : (n = 2 \/ n = 3)%nat -> len mat = Z.of_nat n * (Z.of_nat n + 1) / 2 ->
    exists a v thr d diag ev p, jacobi (Z.of_nat n) mat = Ok (((a, v), thr), d) /\ shaped (Z.of_nat n) ((a, v), thr) /\
      diagonal (Z.of_nat n) a = Ok diag /\ length diag = n /\ sorts n diag ev p /\ length ev = n /\
      symmetricEigen (Z.of_nat n) mat = Ok (ev, concat (rows_at n v p)) /\ length (concat (rows_at n v p)) = (n * n)%nat.
  Proof.
    intros Hn L; destruct (jacobi_total (Z.of_nat n) mat ltac:(lia) L) as ([[a v] thr] & d & E & Sh).
    destruct Hn as [-> | ->].
    - destruct (shaped2 _ Sh) as (a0 & a1 & a2 & v0 & v1 & v2 & v3 & thr' & Est); injection Est as -> -> ->.
      assert (D : diagonal (Z.of_nat 2) [a0; a1; a2] = Ok [a0; a2]) by reflexivity.
      destruct (sort2_sorts a0 a2) as (ev & p & S).
      assert (Lv : length ev = 2%nat).
      { destruct S as (Sp & _ & Se); rewrite <- (map_length Some), Se, map_length, (Permutation_length Sp); reflexivity. }
      exists [a0; a1; a2], [v0; v1; v2; v3], thr', d, [a0; a2], ev, p.
      split; [exact E|split; [exact Sh|split; [exact D|split; [reflexivity|split; [exact S|split; [exact Lv|]]]]]].
      destruct S as (_ & So & _); unfold symmetricEigen; rewrite E; cbn [obind]; fold (diagonal (Z.of_nat 2) [a0; a1; a2]); rewrite D; cbn [obind]; rewrite So; cbn [obind fst snd].
      change (Z.of_nat 2) with 2 in So; rewrite sort2_ok in So.
      destruct (n_ltb a0 a2); injection So as _ Ep; (destruct p as [|p0 [|p1 [|? ?]]]; try discriminate Ep); cbn in Ep; injection Ep as E0 E1;
        destruct p0 as [|[|?]]; try lia; destruct p1 as [|[|?]]; try lia; split; reflexivity.
    - destruct (shaped3 _ Sh) as (a0 & a1 & a2 & a3 & a4 & a5 & v0 & v1 & v2 & v3 & v4 & v5 & v6 & v7 & v8 & thr' & Est); injection Est as -> -> ->.
      assert (D : diagonal (Z.of_nat 3) [a0; a1; a2; a3; a4; a5] = Ok [a0; a2; a5]) by reflexivity.
      destruct (sort3_sorts a0 a2 a5) as (ev & p & S).
      assert (Lv : length ev = 3%nat).
      { destruct S as (Sp & _ & Se); rewrite <- (map_length Some), Se, map_length, (Permutation_length Sp); reflexivity. }
      exists [a0; a1; a2; a3; a4; a5], [v0; v1; v2; v3; v4; v5; v6; v7; v8], thr', d, [a0; a2; a5], ev, p.
      split; [exact E|split; [exact Sh|split; [exact D|split; [reflexivity|split; [exact S|split; [exact Lv|]]]]]].
      destruct S as (Sp & So & _); unfold symmetricEigen; rewrite E; cbn [obind]; fold (diagonal (Z.of_nat 3) [a0; a1; a2; a3; a4; a5]); rewrite D; cbn [obind]; rewrite So; cbn [obind fst snd].
      assert (Lp := Permutation_length Sp); destruct p as [|p0 [|p1 [|p2 [|? ?]]]]; try discriminate Lp.
      assert (H : forall x, In x [p0; p1; p2] -> (x < 3)%nat) by (intros x Hx; apply (Permutation_in x Sp), in_seq in Hx; lia).
      pose proof (H p0 ltac:(cbn; auto)); pose proof (H p1 ltac:(cbn; auto)); pose proof (H p2 ltac:(cbn; auto)); clear H Sp So Lp.
      destruct p0 as [|[|[|?]]]; try lia; destruct p1 as [|[|[|?]]]; try lia; destruct p2 as [|[|[|?]]]; try lia; split; reflexivity.
  Qed.
End Generic.
