(** * C158: the length of a vector in binary64. *)
From Verif Require Import Base Num Serie Spec BaseFacts SerieFacts Functional FunctionalFacts Utils Mathf MathFacts MinMaxFacts Algebra AlgebraFacts.
From Verif Require Import F64 F64Facts F64Arith F64Round F64Sum Props_Functional Props_MultDiv Props_F64Int Props_F64Norm.
From Flocq Require Import Core IEEE754.BinarySingleNaN Relative.
From Coq Require Import Reals Lra Psatz.
Open Scope R_scope.
Opaque f64_of_Z.

(** ** what is computed *)
Definition squares_of (item : list F64) : F64 := fold_left (fun a v => f64_add a (f64_mul v v)) item #0.

Lemma sum_prod_squares (L : Libm) item : @sum_prod F64 (f64_num L) item item = squares_of item.
Proof. unfold sum_prod, squares_of; rewrite fold_squares; reflexivity. Qed.
Lemma norm_f64 (L : Libm) (s : Serie F64) k r : repr s k [r] -> (2 <= k)%Z ->
  @norm2 F64 (f64_num L) s = Ok (mk 1 (col [squares_of r]) 3) /\ @norm F64 (f64_num L) s = Ok (mk 1 (col [length_of r]) 3).
Proof.
  intros Hs Hk.
  assert (N2 : @norm2 F64 (f64_num L) s = Ok (mk 1 (col [squares_of r]) 3)).
  { unfold norm2; rewrite (isValid_repr _ _ _ Hs), (repr_itemSize _ _ _ Hs), (repr_count _ _ _ Hs).
    destruct (Z.ltb_spec 0 k); [|lia]; destruct (Z.eqb_spec k 1); [lia|]; cbn [negb].
    change (iota (len [r])) with [0%Z]; cbn [foldO].
    assert (E0 : value s 0 = Ok r) by (exact (value_nth s k [r] 0 r Hs eq_refl)).
    rewrite E0; cbn [obind]; rewrite sq_loop, sum_prod_squares; reflexivity. }
  split; [exact N2|]; unfold norm; rewrite N2; cbn [obind].
  rewrite (map_rows_ok _ 1 (col [squares_of r]) _ (fun a => [f64_sqrt (nth 0 a #0)]) 1); [reflexivity|repr_ex|discriminate|lia|].
  intros a [<-|[]]; split; reflexivity.
Qed.

(** ** accuracy *)
Lemma root_near S S' a : 0 < S -> 0 <= a -> Rabs (S' - S) <= a * S -> 0 <= S' -> Rabs (sqrt S' - sqrt S) <= a * sqrt S.
Proof.
  intros S0 A0 H S0'; pose proof (sqrt_lt_R0 S S0) as Q; pose proof (sqrt_pos S') as Q'.
  assert (E : S' - S = (sqrt S' - sqrt S) * (sqrt S' + sqrt S)) by (rewrite <- (sqrt_sqrt S') at 1 by lra; rewrite <- (sqrt_sqrt S) at 1 by lra; ring).
  rewrite E, Rabs_mult, (Rabs_pos_eq (sqrt S' + sqrt S)) in H by lra.
  rewrite <- (sqrt_sqrt S) in H at 3 by lra.
  apply Rmult_le_reg_r with (sqrt S); [exact Q|].
  pose proof (Rabs_pos (sqrt S' - sqrt S)); nra.
Qed.

Definition moderate_row (r : list F64) : Prop := Forall (fun x => is_finite x = true /\ Rabs (B2R x) <= bpow radix2 490) r.
Lemma moderate_finite (s : Serie F64) k r : repr s k [r] -> moderate_row r -> is_finite (squares_of r) = true /\ len r = k /\ (k < 2 ^ 31)%Z.
Proof.
  intros Hs Hx; pose proof (repr_rows _ _ _ Hs) as Rr; unfold rows_of_size in Rr; inversion Rr as [|? ? Lr _]; subst.
  pose proof (repr_bounds _ _ _ Hs) as Hb; destruct zero_B2R as [E0 F0].
  split; [|split; [reflexivity|lia]].
  apply (squares_finite r #0 0 F0); [lia|rewrite E0, Rmult_0_l; split; apply Rle_refl|change (0 + len r <= 2 ^ 40)%Z; lia|exact Hx].
Qed.

Theorem C158_error :
  forall (L : Libm) (s : Serie F64) k r, repr s k [r] -> (2 <= k)%Z ->
  Forall (fun x => is_finite x = true /\ Rabs (B2R x) <= bpow radix2 490) r -> Exists (fun x => bpow radix2 (-511) <= Rabs (B2R x)) r ->
  exists n2 n, @norm2 F64 (f64_num L) s = Ok (mk 1 (col [n2]) 3) /\ @norm F64 (f64_num L) s = Ok (mk 1 (col [n]) 3) /\
    is_finite n2 = true /\ is_finite n = true /\
    Rabs (B2R n2 - sumsq r) <= (4 * IZR k + 2) * bpow radix2 (-53) * sumsq r /\
    Rabs (B2R n - sqrt (sumsq r)) <= (4 * IZR k + 4) * bpow radix2 (-53) * sqrt (sumsq r) /\
    Forall (fun x => Rabs (B2R x) <= B2R n) r.
Proof.
  intros L s k r Hs Hk Hx Hbig; destruct (norm_f64 L s k r Hs Hk) as [N2 N1]; exists (squares_of r), (length_of r).
  split; [exact N2|]; split; [exact N1|].
  destruct (moderate_finite s k r Hs Hx) as (Fin & Lr & Hk31).
  apply Exists_exists in Hbig; destruct Hbig as (c & Hc & Bc).
  destruct (length_above r c Fin Hc Bc) as (Fn & Bn & Up).
  split; [exact Fin|]; split; [exact Fn|].
  assert (Ek : IZR k = INR (length r)) by (rewrite INR_IZR_INZ; f_equal; unfold len in Lr; lia).
  assert (Kb : INR (length r) <= bpow radix2 31) by (rewrite <- Ek; change (bpow radix2 31) with (IZR (2 ^ 31)); apply IZR_le; lia).
  pose proof (squares_near r c Fin Hc Bc Kb) as Near; fold (squares_of r) in Near; rewrite <- Ek in Near.
  split; [exact Near|]; split; [|apply Forall_forall; intros x Hin; apply Up; exact Hin].
  destruct (squares_above r #0 ltac:(rewrite (proj1 zero_B2R); lra) Fin) as (_ & S0 & _); fold (squares_of r) in S0; rewrite (proj1 zero_B2R) in S0.
  destruct (sqrt_finite (squares_of r) Fin S0) as [_ Eq]; fold (length_of r) in Eq; change (f64_sqrt (squares_of r)) with (length_of r) in Eq.
  assert (P : bpow radix2 (-1022) <= sumsq r).
  { eapply Rle_trans; [|apply (sumsq_in c r Hc)]; change (-1022)%Z with (-511 + -511)%Z; rewrite bpow_plus.
    rewrite <- (Rabs_pos_eq (B2R c * B2R c)) by (exact (Rle_0_sqr (B2R c))); rewrite Rabs_mult; apply Rmult_le_compat; auto using bpow_ge_0. }
  pose proof (bpow_gt_0 radix2 (-1022)) as B0.
  fold uu in *; pose proof uu_pos as U.
  assert (K2 : 2 <= IZR k) by (apply IZR_le; lia).
  set (a := (4 * IZR k + 2) * uu) in *.
  assert (A0 : 0 <= a) by (unfold a; apply Rmult_le_pos; lra).
  assert (A1 : a <= 1 / 4).
  { unfold a; apply Rle_trans with (bpow radix2 36 * uu).
    - apply Rmult_le_compat_r; [lra|]; change (bpow radix2 36) with (IZR (2 ^ 36)); rewrite <- mult_IZR, <- plus_IZR; apply IZR_le; lia.
    - unfold uu; rewrite <- bpow_plus, <- bpow_quarter; apply bpow_le; lia. }
  pose proof (root_near (sumsq r) (B2R (squares_of r)) a ltac:(lra) A0 Near S0) as Root.
  set (q := sqrt (B2R (squares_of r))) in *; set (t := sqrt (sumsq r)) in *.
  assert (T0 : bpow radix2 (-511) <= t).
  { unfold t; rewrite <- (sqrt_square (bpow radix2 (-511))) by apply bpow_ge_0; apply sqrt_le_1_alt; rewrite <- bpow_plus; exact P. }
  pose proof (bpow_gt_0 radix2 (-511)) as B1; apply Rabs_le_inv in Root.
  assert (Q0 : bpow radix2 (-1022) <= Rabs q).
  { assert (G : bpow radix2 (-1022) <= / 2 * bpow radix2 (-511)) by (change (/ 2) with (bpow radix2 (-1)); rewrite <- bpow_plus; apply bpow_le; lia).
    rewrite Rabs_pos_eq; nra. }
  destruct (rel_err r q Q0) as (e & Be & Er); rewrite Eq, Er; apply Rabs_le_inv in Be.
  replace ((4 * IZR k + 4) * uu * t) with (a * t + 2 * (uu * t)) by (unfold a; ring).
  assert (Qb : Rabs (q * e) <= 2 * (uu * t)).
  { rewrite Rabs_mult, (Rabs_pos_eq q) by nra.
    apply Rle_trans with ((2 * t) * uu); [|lra]; apply Rmult_le_compat; [nra|apply Rabs_pos|nra|apply Rabs_le; exact Be]. }
  apply Rabs_le_inv in Qb; apply Rabs_le; split; nra.
Qed.
Print Assumptions C158_error.

(** ** monotony *)
Theorem C158_monotone :
  forall (L : Libm) (s s' : Serie F64) k r r', repr s k [r] -> repr s' k [r'] -> (2 <= k)%Z ->
  Forall (fun x => is_finite x = true /\ Rabs (B2R x) <= bpow radix2 490) r -> Forall (fun x => is_finite x = true /\ Rabs (B2R x) <= bpow radix2 490) r' ->
  Forall2 (fun x y => Rabs (B2R x) <= Rabs (B2R y)) r r' ->
  exists n2 n n2' n', @norm2 F64 (f64_num L) s = Ok (mk 1 (col [n2]) 3) /\ @norm F64 (f64_num L) s = Ok (mk 1 (col [n]) 3) /\
    @norm2 F64 (f64_num L) s' = Ok (mk 1 (col [n2']) 3) /\ @norm F64 (f64_num L) s' = Ok (mk 1 (col [n']) 3) /\
    is_finite n = true /\ is_finite n' = true /\ 0 <= B2R n2 <= B2R n2' /\ 0 <= B2R n <= B2R n'.
Proof.
  intros L s s' k r r' Hs Hs' Hk Hx Hx' H.
  destruct (norm_f64 L s k r Hs Hk) as [N2 N1]; destruct (norm_f64 L s' k r' Hs' Hk) as [N2' N1'].
  exists (squares_of r), (length_of r), (squares_of r'), (length_of r'); split; [exact N2|]; split; [exact N1|]; split; [exact N2'|]; split; [exact N1'|].
  destruct (moderate_finite s k r Hs Hx) as (Fin & _); destruct (moderate_finite s' k r' Hs' Hx') as (Fin' & _).
  destruct (squares_above r #0 ltac:(rewrite (proj1 zero_B2R); lra) Fin) as (_ & S0 & _); fold (squares_of r) in S0; rewrite (proj1 zero_B2R) in S0.
  destruct (squares_above r' #0 ltac:(rewrite (proj1 zero_B2R); lra) Fin') as (_ & S0' & _); fold (squares_of r') in S0'; rewrite (proj1 zero_B2R) in S0'.
  destruct (sqrt_finite _ Fin S0) as [Fq Eq]; destruct (sqrt_finite _ Fin' S0') as [Fq' Eq'].
  assert (M : B2R (squares_of r) <= B2R (squares_of r')).
  { unfold squares_of in *; rewrite fold_squares in *; rewrite (fold_squares r') in *; apply sum_mono; [|lra|exact Fin|exact Fin'].
    clear - Hx Hx' H; induction H as [|x y r r' Hxy H IH]; cbn [map2]; [constructor|].
    inversion Hx as [|? ? [Fx Bx] Hx1]; inversion Hx' as [|? ? [Fy By] Hx1']; subst; constructor; [|apply IH; assumption].
    assert (Sq : forall z : F64, is_finite z = true -> Rabs (B2R z) <= bpow radix2 490 -> B2R (f64_mul z z) = rnd (Rabs (B2R z) * Rabs (B2R z))).
    { intros z Fz Bz; rewrite <- Rabs_mult, (Rabs_pos_eq (B2R z * B2R z)) by exact (Rle_0_sqr (B2R z)).
      apply (mul_ok z z Fz Fz); unfold in_range.
      assert (F980 : fmt (bpow radix2 980)) by (apply generic_format_bpow; unfold SpecFloat.fexp, SpecFloat.emin; lia).
      assert (P : 0 <= B2R z * B2R z <= bpow radix2 980).
      { split; [exact (Rle_0_sqr (B2R z))|]; rewrite <- (Rabs_pos_eq (B2R z * B2R z)) by exact (Rle_0_sqr (B2R z)); rewrite Rabs_mult.
        change 980%Z with (490 + 490)%Z; rewrite bpow_plus; apply Rmult_le_compat; auto using Rabs_pos. }
      assert (Pr : 0 <= rnd (B2R z * B2R z) <= bpow radix2 980) by (split; [rewrite <- rnd_0; apply rnd_le; lra|rewrite <- (rnd_fmt _ F980); apply rnd_le; lra]).
      rewrite Rabs_pos_eq by lra; apply Rle_lt_trans with (bpow radix2 980); [lra|apply bpow_lt; lia]. }
    rewrite (Sq x Fx Bx), (Sq y Fy By); apply rnd_le, Rmult_le_compat; auto using Rabs_pos. }
  assert (Z : 0 <= rnd (sqrt (B2R (squares_of r)))) by (rewrite <- rnd_0; apply rnd_le, sqrt_pos).
  change (f64_sqrt (squares_of r)) with (length_of r) in *; change (f64_sqrt (squares_of r')) with (length_of r') in *.
  split; [exact Fq|]; split; [exact Fq'|]; split; [lra|]; rewrite Eq, Eq'; split; [exact Z|apply rnd_le, sqrt_le_1_alt; exact M].
Qed.
Print Assumptions C158_monotone.

(** ** signs and order *)
Lemma square_opp (x : F64) : f64_mul (Bopp x) (Bopp x) = f64_mul x x.
Proof. destruct x as [s|s| |s m e p]; try (destruct s; reflexivity); [reflexivity|]. unfold f64_mul; cbn [Bopp Bmult]; apply B2SF_inj; rewrite !B2SF_SF2B; destruct s; reflexivity. Qed.
Theorem C158_signs :
  forall (L : Libm) (s s' : Serie F64) k r r', repr s k [r] -> repr s' k [r'] -> (2 <= k)%Z ->
  Forall2 (fun x y => y = x \/ y = Bopp x) r r' ->
  @norm2 F64 (f64_num L) s = @norm2 F64 (f64_num L) s' /\ @norm F64 (f64_num L) s = @norm F64 (f64_num L) s'.
Proof.
  intros L s s' k r r' Hs Hs' Hk H.
  destruct (norm_f64 L s k r Hs Hk) as [-> ->]; destruct (norm_f64 L s' k r' Hs' Hk) as [-> ->].
  assert (E : squares_of r = squares_of r').
  { unfold squares_of; generalize #0; clear - H; induction H as [|x y r r' E H IH]; intros a; cbn [fold_left]; [reflexivity|].
    destruct E as [E|E]; rewrite E; [|rewrite square_opp]; apply IH. }
  unfold length_of; fold (squares_of r) (squares_of r'); rewrite E; split; reflexivity.
Qed.
Print Assumptions C158_signs.

Definition plus_zero (m : F64) : bool := match m with B754_zero true => false | _ => true end.
Lemma square_plus (x : F64) : plus_zero (f64_mul x x) = true.
Proof.
  destruct (is_finite (f64_mul x x)) eqn:F; [|destruct (f64_mul x x) as [s|s| |s m e p]; [discriminate F|reflexivity|reflexivity|reflexivity]].
  destruct x as [s|s| |s m e p]; try (destruct s; reflexivity); [reflexivity|].
  destruct (mul_inv _ _ F) as [Fx _].
  pose proof (Bmult_correct 53 1024 F64_prec F64_emax mode_NE (B754_finite s m e p) (B754_finite s m e p)) as C.
  rewrite Rlt_bool_true in C by (exact (mul_finite _ _ F)).
  destruct C as (_ & _ & Sg); fold f64_mul in Sg; unfold f64_mul in *.
  set (y := Bmult mode_NE _ _) in *; clearbody y; destruct y as [[|]|?| |? ? ? ?]; try reflexivity.
  specialize (Sg eq_refl); cbn [Bsign] in Sg; destruct s; discriminate Sg.
Qed.
Lemma zero_plus (m : F64) : plus_zero m = true -> f64_add #0 m = m.
Proof.
  intros H; assert (Z : #0 = B754_zero false) by (apply B2SF_inj; vm_compute; reflexivity); rewrite Z.
  destruct m as [[|]|s| |s m e p]; try discriminate H; reflexivity.
Qed.
Theorem C158_order :
  (forall (L : Libm) x y, @norm2 F64 (f64_num L) (mk 2 [[x; y]] 3) = @norm2 F64 (f64_num L) (mk 2 [[y; x]] 3) /\
     @norm F64 (f64_num L) (mk 2 [[x; y]] 3) = @norm F64 (f64_num L) (mk 2 [[y; x]] 3)) /\
  (forall (L : Libm) x y z, @norm2 F64 (f64_num L) (mk 3 [[x; y; z]] 3) = @norm2 F64 (f64_num L) (mk 3 [[y; x; z]] 3) /\
     @norm F64 (f64_num L) (mk 3 [[x; y; z]] 3) = @norm F64 (f64_num L) (mk 3 [[y; x; z]] 3)) /\
  (exists x y : F64, forall L : Libm, @norm2 F64 (f64_num L) (mk 3 [[x; y; y]] 3) <> @norm2 F64 (f64_num L) (mk 3 [[y; y; x]] 3)).
Proof.
  assert (W : forall x y, f64_add (f64_add #0 (f64_mul x x)) (f64_mul y y) = f64_add (f64_add #0 (f64_mul y y)) (f64_mul x x)).
  { intros x y; rewrite !zero_plus by apply square_plus; apply f64_add_comm. }
  split; [|split].
  - intros L x y; destruct (norm_f64 L (mk 2 [[x; y]] 3) 2 [x; y]) as [-> ->]; [repr_ex|lia|]; destruct (norm_f64 L (mk 2 [[y; x]] 3) 2 [y; x]) as [-> ->]; [repr_ex|lia|].
    unfold length_of, squares_of; cbn [fold_left]; rewrite W; split; reflexivity.
  - intros L x y z; destruct (norm_f64 L (mk 3 [[x; y; z]] 3) 3 [x; y; z]) as [-> ->]; [repr_ex|lia|]; destruct (norm_f64 L (mk 3 [[y; x; z]] 3) 3 [y; x; z]) as [-> ->]; [repr_ex|lia|].
    unfold length_of, squares_of; cbn [fold_left]; rewrite W; split; reflexivity.
  - exists #1, (f64_div #11 #(2 ^ 30)); intros L.
    set (t := f64_div #11 #(2 ^ 30)).
    destruct (norm_f64 L (mk 3 [[#1; t; t]] 3) 3 [#1; t; t]) as [-> _]; [repr_ex|lia|]; destruct (norm_f64 L (mk 3 [[t; t; #1]] 3) 3 [t; t; #1]) as [-> _]; [repr_ex|lia|].
    assert (D : Bltb (squares_of [#1; t; t]) (squares_of [t; t; #1]) = true) by (vm_compute; reflexivity).
    assert (I : forall u v : F64, Ok (mk 1 (col [u]) 3) = Ok (mk 1 (col [v]) 3) -> u = v) by (intros u v E; injection E as E; exact E).
    assert (F : is_finite (squares_of [t; t; #1]) = true) by (vm_compute; reflexivity).
    intros E; apply I in E; rewrite E in D; apply (lt_ok _ _ F F) in D; lra.
Qed.
Print Assumptions C158_order.

(** ** too large, too small, not a number *)
Lemma nan_add_l (y : F64) : f64_add B754_nan y = B754_nan. Proof. destruct y; reflexivity. Qed.
Lemma nan_add_r (y : F64) : f64_add y B754_nan = B754_nan. Proof. destruct y; reflexivity. Qed.
Theorem C158_nan :
  forall (L : Libm) (s : Serie F64) k r, repr s k [r] -> (2 <= k)%Z -> In B754_nan r ->
  @norm2 F64 (f64_num L) s = Ok (mk 1 (col [B754_nan]) 3) /\ @norm F64 (f64_num L) s = Ok (mk 1 (col [B754_nan]) 3).
Proof.
  intros L s k r Hs Hk Hin; destruct (norm_f64 L s k r Hs Hk) as [-> ->].
  assert (Keep : forall l, fold_left (fun a v => f64_add a (f64_mul v v)) l B754_nan = B754_nan).
  { induction l as [|x l IH]; cbn [fold_left]; [reflexivity|]; rewrite nan_add_l; exact IH. }
  assert (E : squares_of r = B754_nan).
  { unfold squares_of; generalize #0; clear - Hin Keep; induction r as [|x r IH]; intros a; [destruct Hin|]; cbn [fold_left].
    destruct Hin as [->|Hin]; [|apply IH; exact Hin]; change (f64_mul B754_nan B754_nan) with (B754_nan : F64); rewrite nan_add_r; apply Keep. }
  unfold length_of; fold (squares_of r); rewrite E; split; reflexivity.
Qed.
Print Assumptions C158_nan.

Theorem C158_extremes :
  (exists (s : Serie F64) r, repr s 3 [r] /\ Forall (fun x => is_finite x = true) r /\ sqrt (sumsq r) = bpow radix2 600 /\
     forall L : Libm, @norm F64 (f64_num L) s = Ok (mk 1 (col [B754_infinity false]) 3)) /\
  (exists (s : Serie F64) r n, repr s 3 [r] /\ Forall (fun x => is_finite x = true) r /\ 0 < sqrt (sumsq r) /\ is_zero n /\
     forall L : Libm, @norm F64 (f64_num L) s = Ok (mk 1 (col [n]) 3)).
Proof.
  split.
  - set (b := f64_of_Z (2 ^ 600)); exists (mk 3 [[b; #0; #0]] 3), [b; #0; #0]; split; [repr_ex|].
    split; [repeat (apply Forall_cons; [vm_compute; reflexivity|]); apply Forall_nil|]; split.
    + assert (Eb : B2R b = bpow radix2 600).
      { unfold b; assert (Q : B2SF (f64_of_Z (2 ^ 600)) = SpecFloat.S754_finite false 4503599627370496 548) by (vm_compute; reflexivity).
        rewrite <- SF2R_B2SF, Q; cbn [SF2R cond_Zopp]; change 4503599627370496%positive with (2 ^ 52)%positive.
        unfold F2R; cbn [Fnum Fexp]; change (IZR (Z.pos (2 ^ 52))) with (bpow radix2 52); rewrite <- bpow_plus; reflexivity. }
      unfold sumsq; cbn [map fold_right]; rewrite (proj1 zero_B2R), Eb.
      replace (bpow radix2 600 * bpow radix2 600 + (0 * 0 + (0 * 0 + 0))) with (bpow radix2 600 * bpow radix2 600) by ring; apply sqrt_square, bpow_ge_0.
    + intros L; destruct (norm_f64 L (mk 3 [[b; #0; #0]] 3) 3 [b; #0; #0]) as [_ ->]; [repr_ex|lia|].
      assert (I : length_of [b; #0; #0] = B754_infinity false) by (apply inf_by; vm_compute; reflexivity); rewrite I; reflexivity.
  - set (b := f64_div #1 #(2 ^ 600)); exists (mk 3 [[b; #0; #0]] 3), [b; #0; #0], (length_of [b; #0; #0]); split; [repr_ex|].
    split; [repeat (apply Forall_cons; [vm_compute; reflexivity|]); apply Forall_nil|]; split; [|split].
    + apply sqrt_lt_R0; pose proof (sumsq_nonneg [b; #0; #0]) as N0.
      assert (P : 0 < B2R b) by (apply above_zero; vm_compute; reflexivity).
      pose proof (sumsq_nonzero b P); lra.
    + apply zero_by; vm_compute; reflexivity.
    + intros L; destruct (norm_f64 L (mk 3 [[b; #0; #0]] 3) 3 [b; #0; #0]) as [_ ->]; [repr_ex|lia|reflexivity].
Qed.
Print Assumptions C158_extremes.

(** the hypotheses of C158_error are met by (3, 4), those of C158_monotone by (3, 4) and (-5, 4), those of C158_signs by (3, 4) and (3, -4), those of C158_nan
    by (1, NaN) *)
Example C158_ex :
  let ok (r : list F64) := Forall (fun x => is_finite x = true /\ Rabs (B2R x) <= bpow radix2 490) r in
  repr (mk 2 [[#3; #4]] 3) 2 [[#3; #4]] /\ ok [#3; #4] /\ Exists (fun x => bpow radix2 (-511) <= Rabs (B2R x)) [#3; #4] /\
  repr (mk 2 [[#(-5); #4]] 3) 2 [[#(-5); #4]] /\ ok [#(-5); #4] /\ Forall2 (fun x y => Rabs (B2R x) <= Rabs (B2R y)) [#3; #4] [#(-5); #4] /\
  Forall2 (fun x y => y = x \/ y = Bopp x) [#3; #4] [#3; Bopp #4] /\ In (B754_nan : F64) [#1; B754_nan] /\
  match @norm F64 F64N (mk 2 [[#3; #4]] 3) with Ok n => forallb (fun x => Beqb x #5) (s_ n) | _ => false end = true.
Proof.
  cbv zeta.
  assert (E : forall z, (-5 <= z <= 5)%Z -> B2R #z = IZR z /\ is_finite #z = true).
  { intros z Hz; destruct (f64_of_Z_correct z ltac:(lia)) as (E1 & F1 & _); split; assumption. }
  assert (B : forall z, (-5 <= z <= 5)%Z -> is_finite #z = true /\ Rabs (B2R #z) <= bpow radix2 490).
  { intros z Hz; destruct (E z Hz) as [E1 F1]; split; [exact F1|]; rewrite E1; apply Rle_trans with (bpow radix2 3); [|apply bpow_le; lia].
    change (bpow radix2 3) with 8; rewrite <- abs_IZR; apply IZR_le; lia. }
  split; [repr_ex|]; split; [repeat (apply Forall_cons; [apply B; lia|]); apply Forall_nil|]; split.
  { apply Exists_cons_hd; rewrite (proj1 (E 3%Z ltac:(lia))), Rabs_pos_eq by lra; apply Rle_trans with (bpow radix2 0); [apply bpow_le; lia|change (bpow radix2 0) with 1; lra]. }
  split; [repr_ex|]; split; [repeat (apply Forall_cons; [apply B; lia|]); apply Forall_nil|]; split.
  { constructor; [|constructor; [apply Rle_refl|constructor]]; rewrite (proj1 (E 3%Z ltac:(lia))), (proj1 (E (-5)%Z ltac:(lia))).
    rewrite <- !abs_IZR; apply IZR_le; lia. }
  split; [constructor; [left; reflexivity|constructor; [right; reflexivity|constructor]]|]; split; [right; left; reflexivity|].
  vm_compute; reflexivity.
Qed.
