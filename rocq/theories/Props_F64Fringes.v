(** * C142: projections on the line of sight, and their fringes, in binary64. *)
From Flocq Require Import Core Mult_error IEEE754.BinarySingleNaN.
From Coq Require Import Reals Lra Psatz.
From Verif Require Import Base Num Serie Spec BaseFacts SerieFacts Functional FunctionalFacts Utils Mathf MathFacts Views Algebra AlgebraFacts Geo ViewFacts.
From Verif Require F64Error.
From Verif Require Import MinMaxFacts F64 F64Facts F64Arith F64Round F64Sum Props_Functional Props_F64Int Props_Algebra Props_F64Sum Props_F64Grid.
Open Scope Z_scope.
Opaque f64_of_Z.

Lemma insar_f64 (L : Libm) (u : Serie F64) rows los : repr u 3 rows -> rows <> [] -> len los = 3 ->
  @insar F64 (f64_num L) u los = Ok (mk 1 (col (map (fun r => fold_left f64_add (map2 f64_mul r los) #0) rows)) 3).
Proof.
  intros Hu Hne Ll; unfold insar; rewrite (isValid_repr _ _ _ Hu), (repr_itemSize _ _ _ Hu), Ll; cbn [Z.ltb Z.compare Z.eqb Pos.eqb negb orb].
  unfold dot_array; destruct rows as [|r0 rows]; [congruence|].
  pose proof (repr_rows _ _ _ Hu) as Rr; unfold rows_of_size in Rr; rewrite Forall_forall in Rr.
  rewrite (value_nth u 3 (r0 :: rows) 0 r0 Hu eq_refl : value u 0 = Ok r0); cbn [obind].
  rewrite (Rr r0 (or_introl eq_refl)), Ll; cbn [Z.eqb Pos.eqb negb]; rewrite (repr_itemSize _ _ _ Hu).
  unfold col; rewrite map_map.
  apply (@map_rows_ok F64 (f64_num L) u 3 (r0 :: rows) (fun arr => @dot_item F64 (f64_num L) 3 arr los) (fun r => [fold_left f64_add (map2 f64_mul r los) #0]) 1 Hu Hne ltac:(lia)).
  intros r Hr; split; [|reflexivity]; rewrite (@dot_item_ok F64 (f64_num L)) by (first [apply Rr; exact Hr|exact Ll]); reflexivity.
Qed.
(** every finite projection against the exact inner product *)
Theorem C142_insar :
  forall (L : Libm) (u : Serie F64) rows los, repr u 3 rows -> rows <> [] -> len los = 3 ->
  exists ds, @insar F64 (f64_num L) u los = Ok (mk 1 (col ds) 3) /\
    Forall2 (fun r d => is_finite d = true -> (Rabs (B2R d - dotB r los) <= growth 4 * dotA r los + (1 + uu) ^ 3 * (3 * eta))%R) rows ds.
Proof.
  intros L u rows los Hu Hne Ll; eexists; split; [exact (insar_f64 L u rows los Hu Hne Ll)|].
  pose proof (repr_rows _ _ _ Hu) as Rr; unfold rows_of_size in Rr; clear Hu Hne.
  induction Rr as [|r rows Lr _ IH]; cbn [map]; constructor; [|exact IH]; intros F.
  destruct (sum_prod_err r los) as (_ & _ & B); [unfold len in *; lia|exact F|].
  assert (E : length r = 3%nat) by (unfold len in *; lia); rewrite E in B.
  replace (INR 3) with 3%R in B by (cbn [INR]; ring); exact B.
Qed.
Print Assumptions C142_insar.

Open Scope R_scope.
Lemma finite_nonzero (x : F64) : B2R x <> 0 -> is_finite x = true.
Proof. destruct x; cbn [B2R]; try reflexivity; intros H; exfalso; apply H; reflexivity. Qed.
Lemma err r B : Rabs r <= B -> bpow radix2 (-1000) <= B -> Rabs (rnd r - r) <= uu * B.
Proof. intros H1 H2; pose proof (F64Error.rnd_err r B H1 H2) as H; rewrite F64Error.uu_bpow in H; exact H. Qed.

(** each fringe is the displacement modulo the spacing, up to rounding *)
Theorem C142_phase :
  forall (L : Libm) (s : Serie F64) ds w, repr s 1 (col ds) -> ds <> [] -> bpow radix2 (-1000) <= Rabs (B2R w) ->
  exists fs, @fringes F64 (f64_num L) s w = Ok (mk 1 (col fs) 3) /\
    Forall2 (fun d f => is_finite (f64_div d w) = true ->
      is_finite f = true /\ 0 <= B2R f <= Rabs (B2R w) /\
      exists k : Z, Rabs (B2R f - Rabs (B2R w) * (B2R d / B2R w - IZR k)) <= uu * (Rabs (B2R d) + 3 * Rabs (B2R w))) ds fs.
Proof.
  intros L s ds w Hs Hne Hw.
  assert (Wp : 0 < Rabs (B2R w)) by (pose proof (bpow_gt_0 radix2 (-1000)); lra).
  assert (Wn : B2R w <> 0) by (intros E; rewrite E, Rabs_R0 in Wp; lra).
  pose proof (finite_nonzero w Wn) as Fw.
  destruct (C118_fringes_partial L s ds w Hs Hne Fw) as (fs & E & F).
  eexists; split; [exact (fringes_f64 L s ds w Hs Hne)|].
  rewrite (fringes_f64 L s ds w Hs Hne) in E.
  assert (fs = map (fun x => let q := f64_div x w in Babs (f64_mul w (f64_sub q (Bnearbyint mode_DN q)))) ds) as ->
    by (apply (f_equal (fun o => match o with Ok s => s_ s | _ => [] end)) in E; cbn [mk s_] in E; rewrite !concat_col in E; symmetry; exact E).
  clear E Hs Hne; induction ds as [|d ds IH]; cbn [map]; constructor; inversion F; subst; [|apply IH; assumption]; clear IH.
  intros Fq; destruct (H2 Fq) as [Ff Bf]; split; [exact Ff|split; [exact Bf|]]; clear H2 H4 Ff Bf F; cbv zeta.
  pose proof (div_inv d w Fq Fw) as Fd; destruct (div_ok d w Fd Wn (div_finite d w Fd Wn Fq)) as [Eq _].
  destruct (floor_ok _ Fq) as [El Fl]; destruct (frac_within _ Fq) as (Ft & Bt & _).
  exists (Zfloor (B2R (f64_div d w))).
  set (q := f64_div d w) in *; set (t := f64_sub q _) in *.
  pose proof (Zfloor_lb (B2R q)) as Lb; pose proof (Zfloor_ub (B2R q)) as Ub.
  assert (A : Rabs (B2R w * B2R t) <= Rabs (B2R w)) by (rewrite Rabs_mult, (Rabs_pos_eq (B2R t)) by lra; nra).
  destruct (mul_ok w t Fw Ft (range_abs w _ A)) as [Em Fm].
  assert (Et : B2R t = rnd (B2R q - IZR (Zfloor (B2R q)))).
  { rewrite <- El; apply (proj1 (sub_ok q _ Fq Fl (sub_finite _ _ Fq Fl Ft))). }
  rewrite B2R_Babs, Em.
  pose proof (err _ _ A Hw) as E3.
  assert (E2 : Rabs (B2R t - (B2R q - IZR (Zfloor (B2R q)))) <= uu * 1).
  { rewrite Et; apply err; [rewrite Rabs_pos_eq by lra; lra|]; change 1 with (bpow radix2 0); apply bpow_le; lia. }
  assert (E1 : Rabs (B2R q - B2R d / B2R w) <= uu * (Rabs (B2R d / B2R w) + bpow radix2 (-1000))).
  { rewrite Eq; apply err; pose proof (bpow_gt_0 radix2 (-1000)); pose proof (Rabs_pos (B2R d / B2R w)); lra. }
  assert (L1 : bpow radix2 (-1000) <= 1) by (change 1 with (bpow radix2 0); apply bpow_le; lia).
  pose proof uu_pos as U.
  set (k := IZR (Zfloor (B2R q))) in *; set (m := rnd (B2R w * B2R t)) in *.
  assert (S3 : Rabs (Rabs m - Rabs (B2R w) * B2R t) <= uu * Rabs (B2R w)).
  { rewrite <- (Rabs_pos_eq (B2R t)) at 1 by lra; rewrite <- Rabs_mult; eapply Rle_trans; [apply Rabs_triang_inv2|exact E3]. }
  replace (Rabs m - Rabs (B2R w) * (B2R d / B2R w - k)) with
    ((Rabs m - Rabs (B2R w) * B2R t) + Rabs (B2R w) * (B2R t - (B2R q - k)) + Rabs (B2R w) * (B2R q - B2R d / B2R w)) by ring.
  assert (D : Rabs (B2R w) * Rabs (B2R d / B2R w) = Rabs (B2R d)).
  { rewrite <- Rabs_mult; f_equal; field; exact Wn. }
  eapply Rle_trans; [apply Rabs_triang|]; eapply Rle_trans; [apply Rplus_le_compat; [apply Rabs_triang|apply Rle_refl]|].
  rewrite !Rabs_mult, Rabs_Rabsolu.
  assert (Rabs (B2R w) * Rabs (B2R t - (B2R q - k)) <= Rabs (B2R w) * (uu * 1)) by (apply Rmult_le_compat_l; lra).
  assert (Rabs (B2R w) * Rabs (B2R q - B2R d / B2R w) <= Rabs (B2R w) * (uu * (Rabs (B2R d / B2R w) + 1))).
  { apply Rmult_le_compat_l; [lra|]; eapply Rle_trans; [exact E1|]; apply Rmult_le_compat_l; lra. }
  replace (Rabs (B2R w) * (uu * (Rabs (B2R d / B2R w) + 1))) with (uu * (Rabs (B2R w) * Rabs (B2R d / B2R w)) + uu * Rabs (B2R w)) in H0 by ring.
  rewrite D in H0; lra.
Qed.
Print Assumptions C142_phase.

(** a spacing which is a power of two, and displacements which are not negative: no rounding at all *)
Lemma mod_fmt d e : fmt d -> 0 <= d -> fmt (d - bpow radix2 e * IZR (Zfloor (d / bpow radix2 e))).
Proof.
  intros F H0; apply (FLT_format_generic radix2 (SpecFloat.emin 53 1024) 53) in F; destruct F as [[m f] E Hm Hf]; cbn [Fnum Fexp] in *.
  pose proof (bpow_gt_0 radix2 e) as Pe.
  assert (Q : d / bpow radix2 e = IZR m * bpow radix2 (f - e)).
  { rewrite E; unfold F2R, Zminus; cbn [Fnum Fexp]; rewrite bpow_plus, bpow_opp; field; lra. }
  destruct (Z.le_gt_cases e f) as [P|N].
  - assert (I : d / bpow radix2 e = IZR (m * 2 ^ (f - e))) by (rewrite Q, mult_IZR; f_equal; symmetry; apply (IZR_Zpower radix2); lia).
    rewrite I, Zfloor_IZR, <- I; replace (d - bpow radix2 e * (d / bpow radix2 e)) with 0 by (field; lra); apply generic_format_0.
  - set (n := Zfloor (d / bpow radix2 e)); pose proof (Zfloor_lb (d / bpow radix2 e)) as Lb; fold n in Lb.
    assert (N0 : (0 <= n)%Z) by (apply Zfloor_lub; apply Rmult_le_pos; [exact H0|apply Rlt_le, Rinv_0_lt_compat, Pe]).
    assert (P : IZR (2 ^ (e - f)) = bpow radix2 (e - f)) by (apply (IZR_Zpower radix2); lia).
    assert (B : bpow radix2 (e - f) * bpow radix2 f = bpow radix2 e) by (rewrite <- bpow_plus; f_equal; lia).
    assert (I : d - bpow radix2 e * IZR n = F2R (Float radix2 (m - n * 2 ^ (e - f)) f)).
    { unfold F2R; cbn [Fnum Fexp]; rewrite minus_IZR, mult_IZR, P, Rmult_minus_distr_r, Rmult_assoc, B; rewrite E at 1; unfold F2R; cbn [Fnum Fexp]; ring. }
    apply (generic_format_FLT radix2 (SpecFloat.emin 53 1024) 53); eexists; [exact I| |exact Hf]; cbn [Fnum].
    assert (G : 0 <= d - bpow radix2 e * IZR n).
    { assert (bpow radix2 e * IZR n <= bpow radix2 e * (d / bpow radix2 e)) by (apply Rmult_le_compat_l; lra).
      replace (bpow radix2 e * (d / bpow radix2 e)) with d in H by (field; lra); lra. }
    rewrite I in G; apply Fnum_ge_0 in G; cbn [Fnum] in G.
    assert (0 <= n * 2 ^ (e - f))%Z by (apply Z.mul_nonneg_nonneg; [assumption|apply Z.pow_nonneg; lia]); lia.
Qed.
Theorem C142_power_of_two :
  forall (L : Libm) (s : Serie F64) ds w e, repr s 1 (col ds) -> ds <> [] -> B2R w = bpow radix2 e ->
  exists fs, @fringes F64 (f64_num L) s w = Ok (mk 1 (col fs) 3) /\
    Forall2 (fun d f => is_finite (f64_div d w) = true -> 0 <= B2R d -> B2R d = 0 \/ bpow radix2 (e - 1021) <= B2R d ->
      is_finite f = true /\ B2R f = B2R d - B2R w * IZR (Zfloor (B2R d / B2R w)) /\ 0 <= B2R f < B2R w) ds fs.
Proof.
  intros L s ds w e Hs Hne Ew; pose proof (bpow_gt_0 radix2 e) as Pe.
  assert (Wn : B2R w <> 0) by lra; pose proof (finite_nonzero w Wn) as Fw.
  eexists; split; [exact (fringes_f64 L s ds w Hs Hne)|]; clear Hs Hne.
  induction ds as [|d ds IH]; cbn [map]; constructor; [|exact IH]; clear IH; intros Fq H0 Hu; cbv zeta.
  pose proof (div_inv d w Fq Fw) as Fd; destruct (div_ok d w Fd Wn (div_finite d w Fd Wn Fq)) as [Eq _].
  assert (Q : B2R (f64_div d w) = B2R d / B2R w).
  { rewrite Eq; apply rnd_fmt; rewrite Ew; unfold Rdiv; rewrite <- bpow_opp.
    destruct Hu as [->|Hu]; [rewrite Rmult_0_l; apply generic_format_0|].
    apply (mult_bpow_exact_FLT radix2 (SpecFloat.emin 53 1024) 53); [apply fmt_B2R|].
    assert (M : (e - 1021 + 1 <= mag radix2 (B2R d))%Z) by (apply mag_ge_bpow; rewrite Rabs_pos_eq by exact H0; replace (e - 1021 + 1 - 1)%Z with (e - 1021)%Z by lia; exact Hu).
    change (SpecFloat.emin 53 1024) with (-1074)%Z; lia. }
  assert (Q0 : 0 <= B2R (f64_div d w)) by (rewrite Q, Ew; apply Rmult_le_pos; [exact H0|apply Rlt_le, Rinv_0_lt_compat, Pe]).
  destruct (frac_within _ Fq) as (Ft & Bt & Xt); destruct (Xt Q0) as [Et Lt]; clear Xt; set (t := f64_sub _ _) in *.
  assert (A : Rabs (B2R w * B2R t) <= Rabs (B2R w)) by (rewrite Rabs_mult, (Rabs_pos_eq (B2R t)) by lra; pose proof (Rabs_pos (B2R w)); nra).
  destruct (mul_ok w t Fw Ft (range_abs w _ A)) as [Em Fm].
  assert (X : B2R w * B2R t = B2R d - B2R w * IZR (Zfloor (B2R d / B2R w))).
  { rewrite Et, Q; rewrite Rmult_minus_distr_l; f_equal; field; exact Wn. }
  assert (Y : rnd (B2R w * B2R t) = B2R w * B2R t).
  { apply rnd_fmt; rewrite X, Ew; apply mod_fmt; [apply fmt_B2R|exact H0]. }
  rewrite is_finite_Babs, B2R_Babs, Em, Y, Rabs_pos_eq by (apply Rmult_le_pos; lra).
  split; [exact Fm|split; [exact X|split; [apply Rmult_le_pos; lra|rewrite Ew; nra]]].
Qed.
Print Assumptions C142_power_of_two.

(** the same equality is false below zero: a displacement of -2^-60 with a spacing of 1 gives 1 *)
Theorem C142_negative_refuted :
  exists (s : Serie F64) d w f, repr s 1 (col [d]) /\ B2R w = bpow radix2 0 /\ is_finite (f64_div d w) = true /\
  @fringes F64 F64N s w = Ok (mk 1 (col [f]) 3) /\ is_finite f = true /\ B2R f <> B2R d - B2R w * IZR (Zfloor (B2R d / B2R w)).
Proof.
  set (d := f64_div #(-1) #(2 ^ 60)); exists (mk 1 (col [d]) 3), d, #1; eexists.
  destruct (f64_of_Z_correct 1 ltac:(lia)) as (E1 & F1 & _).
  split; [repr_ex|]; split; [exact E1|]; split; [vm_compute; reflexivity|]; split; [apply (fringes_f64 libm0 _ [d] #1); [repr_ex|discriminate]|].
  cbv zeta; set (f := Babs _); assert (Ff : is_finite f = true) by (vm_compute; reflexivity); split; [exact Ff|].
  assert (Q : Beqb f #1 = true) by (vm_compute; reflexivity).
  clearbody f; assert (Fd : is_finite d = true) by (vm_compute; reflexivity).
  destruct zero_B2R as [E0 F0]; destruct (f64_of_Z_correct (-1) ltac:(lia)) as (Em & Fm & _).
  assert (D0 : B2R d < 0) by (rewrite <- E0; apply (lt_ok d #0 Fd F0); vm_compute; reflexivity).
  assert (D1 : -1 < B2R d) by (rewrite <- Em; apply (lt_ok #(-1) d Fm Fd); vm_compute; reflexivity).
  clearbody d; rewrite (Beqb_correct 53 1024 _ _ Ff F1) in Q; destruct (Req_bool_spec (B2R f) (B2R #1)) as [H|]; [|discriminate]; rewrite H, E1.
  assert (K : Zfloor (B2R d / 1) = (-1)%Z) by (apply Zfloor_imp; change (-1 + 1)%Z with 0%Z; unfold Rdiv; rewrite Rinv_1, Rmult_1_r; lra).
  rewrite K; lra.
Qed.
Print Assumptions C142_negative_refuted.

(** a displacement (1, 2, 2) seen along (0, 3, 4) is 14; with a spacing of 4 its fringe is 2, with a spacing of 3 it is near 2 *)
Example C142_ex :
  repr (mk 3 [[#1; #2; #2]] 3) 3 [[#1; #2; #2]] /\ repr (mk 1 (col [#14]) 3) 1 (col [#14]) /\ bpow radix2 (-1000) <= Rabs (B2R #3) /\ B2R #4 = bpow radix2 2 /\
  is_finite (f64_div #14 #3) = true /\ is_finite (f64_div #14 #4) = true /\ bpow radix2 (2 - 1021) <= B2R #14 /\
  (exists d, @insar F64 F64N (mk 3 [[#1; #2; #2]] 3) [#0; #3; #4] = Ok (mk 1 (col [d]) 3) /\ is_finite d = true /\ Beqb d #14 = true) /\
  (exists f, @fringes F64 F64N (mk 1 (col [#14]) 3) #4 = Ok (mk 1 (col [f]) 3) /\ Beqb f #2 = true).
Proof.
  destruct (f64_of_Z_correct 3 ltac:(lia)) as (E3 & _); destruct (f64_of_Z_correct 4 ltac:(lia)) as (E4 & _); destruct (f64_of_Z_correct 14 ltac:(lia)) as (E14 & _).
  split; [repr_ex|]; split; [repr_ex|]; split.
  { rewrite E3, Rabs_pos_eq by lra; apply Rle_trans with (bpow radix2 0); [apply bpow_le; lia|]; change (bpow radix2 0) with 1; lra. }
  split; [rewrite E4; symmetry; exact (eq_sym (IZR_Zpower radix2 2 ltac:(lia)))|]; split; [vm_compute; reflexivity|]; split; [vm_compute; reflexivity|]; split.
  { rewrite E14; apply Rle_trans with (bpow radix2 0); [apply bpow_le; lia|]; change (bpow radix2 0) with 1; lra. }
  split; eexists.
  - split; [apply (insar_f64 libm0 _ [[#1; #2; #2]] [#0; #3; #4]); [repr_ex|discriminate|reflexivity]|]; split; vm_compute; reflexivity.
  - split; [apply (fringes_f64 libm0 _ [#14] #4); [repr_ex|discriminate]|]; vm_compute; reflexivity.
Qed.
