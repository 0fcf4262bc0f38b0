(** * C146: changing units by a power of two changes no digit. *)
From Coq Require Import Permutation Sorted Reals Lra Psatz.
From Flocq Require Import Core IEEE754.BinarySingleNaN.
From Verif Require Import Base Num Serie Spec BaseFacts SerieFacts Functional FunctionalFacts Utils Mathf MathFacts MinMaxFacts Views Stats StatsFacts Algebra AlgebraFacts Geo.
From Verif Require Import F64 F64Facts F64Arith F64Round F64Sum OrderFacts RNum LinSpec Props_MultDiv Props_F64Norm Props_Functional Props_Sort Props_Mean Props_Algebra Props_Geo Props_Quantile Props_F64Quantile Props_F64QuantileErr Props_F64Sum Props_F64Cross Props_F64Det Props_F64Normals.
From Verif Require Import F64Scale.
Open Scope Z_scope.
Opaque f64_of_Z.

(** [y] is the double [x] in other units, 2^e of the new ones for each old one *)
Definition rescaled (e : Z) (x y : F64) : Prop := is_finite x = true /\ is_finite y = true /\ B2R y = (B2R x * bpow radix2 e)%R.
(** neither very small nor very large *)
Definition ordinary (x : F64) : Prop := is_finite x = true /\ (B2R x = 0 \/ bpow radix2 (-100) <= Rabs (B2R x) <= bpow radix2 100)%R.

Lemma sc_rescaled e g k h x y : sc e g k h x y -> rescaled e x y.
Proof. intros [Fx Fy E _ _]; repeat split; assumption. Qed.
Lemma ordinary_sc e x y : ordinary x -> rescaled e x y -> sc e (-152) 1 100 x y.
Proof.
  intros [_ M] (Fx & Fy & E); split; try assumption.
  - change (-152) with (-100 - 52); apply grid_double; destruct M as [M|[M _]]; [left|right]; assumption.
  - rewrite Rmult_1_l; destruct M as [-> |[_ M]]; [rewrite Rabs_R0; apply bpow_ge_0|exact M].
Qed.
Lemma ordinary_list e xs ys : Forall ordinary xs -> Forall2 (rescaled e) xs ys -> Forall2 (sc e (-152) 1 100) xs ys.
Proof. intros M H; induction H as [|x y xs ys Hx _ IH]; constructor; inversion M; subst; [apply ordinary_sc; assumption|apply IH; assumption]. Qed.
Lemma Forall2_len {A B} (P : A -> B -> Prop) xs ys : Forall2 P xs ys -> len ys = len xs.
Proof. intros H; unfold len; f_equal; induction H; cbn [length]; congruence. Qed.
Lemma okay e g k h : -1022 <= g /\ -1022 <= g + e /\ 0 <= k <= 2 ^ 53 /\ -1000 <= h <= 960 /\ -1000 <= h + e <= 960 -> ok e g k h.
Proof. exact (fun H => H). Qed.

(** ** means and covariances *)
Lemma average_sc e n xs ys : Z.abs e <= 100 -> 1 <= n < 4294967296 -> len xs = n -> Forall2 (sc e (-152) 1 100) xs ys ->
  sc e (-236) n 100 (f64_div (fold_left f64_add xs #0) #n) (f64_div (fold_left f64_add ys #0) #n).
Proof.
  intros He Hn Hl H; pose proof (sum_sc e (-152) 100 1 ltac:(lia) xs ys H 0 #0 #0 ltac:(lia)) as S; rewrite Hl in S; replace (0 + 1 * n) with n in S by lia.
  change (-236) with (-152 - 84); apply div_sc; try lia; [apply okay; lia|]; apply S; [apply okay; lia|apply zero_sc].
Qed.
Theorem C146_mean :
  forall (L : Libm) (s s' : Serie F64) xs ys e, repr s 1 (col xs) -> repr s' 1 (col ys) -> xs <> [] -> Forall ordinary xs -> Forall2 (rescaled e) xs ys -> Z.abs e <= 100 ->
  exists m m', @mean F64 (f64_num L) s = Ok (Number m) /\ @mean F64 (f64_num L) s' = Ok (Number m') /\ rescaled e m m'.
Proof.
  intros L s s' xs ys e Hs Hs' Hne M H He; do 2 eexists; split; [apply mean_scalar; exact Hs|]; split; [apply mean_scalar; exact Hs'|].
  pose proof (repr_len s 1 (col xs) Hs ltac:(destruct xs; [congruence|discriminate])) as Hn; rewrite len_col in Hn.
  rewrite (Forall2_len _ _ _ H); cbn [n_div n_add n_of_Z f64_num].
  eapply sc_rescaled, average_sc; try eassumption; [reflexivity|]; apply ordinary_list; assumption.
Qed.
Print Assumptions C146_mean.

Lemma sc_up33 e g k x y : 0 <= k <= 4294967297 -> sc e g k 100 x y -> sc e g 1 133 x y.
Proof. intros Hk H; change 133 with (100 + 33); apply (sc_up e g k); [lia|change (2 ^ 33) with 8589934592; lia|exact H]. Qed.
Lemma deviations_sc L e xs ys : Z.abs e <= 100 -> 1 <= len xs < 4294967296 -> Forall2 (sc e (-152) 1 100) xs ys ->
  Forall2 (sc e (-236) 1 133) (@deviations F64 (f64_num L) xs) (@deviations F64 (f64_num L) ys).
Proof.
  intros He Hn H; pose proof (average_sc e (len xs) xs ys He Hn eq_refl H) as A; unfold deviations; rewrite (Forall2_len _ _ _ H); cbn [n_sub n_div n_add n_of_Z f64_num].
  set (m := f64_div (fold_left f64_add xs #0) #(len xs)) in *; set (m' := f64_div (fold_left f64_add ys #0) #(len xs)) in *; clearbody m m'.
  assert (K : forall us vs, Forall2 (sc e (-152) 1 100) us vs -> Forall2 (sc e (-236) 1 133) (map (fun x => f64_sub x m) us) (map (fun x => f64_sub x m') vs)).
  { induction 1 as [|x y us vs Hx _ IH]; cbn [map]; constructor; [|exact IH].
    apply (sc_up33 e (-236) (1 + len xs)); [lia|]; apply sub_sc; [apply okay; lia| |exact A]; apply (sc_le e (-152) _ 1 _ 100); [lia|lra|exact Hx]. }
  apply K; exact H.
Qed.
Theorem C146_covariance :
  forall (L : Libm) (x x' y y' : Serie F64) xs xs' ys ys' e f, repr x 1 (col xs) -> repr x' 1 (col xs') -> repr y 1 (col ys) -> repr y' 1 (col ys') ->
  xs <> [] -> len xs = len ys -> Forall ordinary xs -> Forall ordinary ys -> Forall2 (rescaled e) xs xs' -> Forall2 (rescaled f) ys ys' -> Z.abs e <= 100 -> Z.abs f <= 100 ->
  exists c c', @covariance F64 (f64_num L) x y = Ok c /\ @covariance F64 (f64_num L) x' y' = Ok c' /\ rescaled (e + f) c c'.
Proof.
  intros L x x' y y' xs xs' ys ys' e f Hx Hx' Hy Hy' Hne Hl Mx My HX HY He Hf.
  pose proof (repr_len x 1 (col xs) Hx ltac:(destruct xs; [congruence|discriminate])) as Hn; rewrite len_col in Hn.
  pose proof (Forall2_len _ _ _ HX) as Lx; pose proof (Forall2_len _ _ _ HY) as Ly.
  do 2 eexists; split; [exact (covariance_steps x y xs ys Hx Hy Hl)|]; split; [apply (covariance_steps x' y' xs' ys' Hx' Hy'); congruence|].
  pose proof (deviations_sc L e xs xs' He Hn (ordinary_list e xs xs' Mx HX)) as DX; rewrite Hl in Hn; pose proof (deviations_sc L f ys ys' Hf Hn (ordinary_list f ys ys' My HY)) as DY.
  pose proof (prod_sc e f (-236) (-236) 133 133 1 1 ltac:(apply okay; lia) _ _ DX _ _ DY) as P.
  assert (LP : len (map2 f64_mul (@deviations F64 (f64_num L) xs) (@deviations F64 (f64_num L) ys)) = len ys) by (rewrite len_map2; unfold deviations; rewrite !len_map; [exact Hl|rewrite Hl; reflexivity]).
  unfold cov_sum; rewrite Lx, Hl; cbn [n_div n_add n_of_Z n_mul f64_num]; cbn [Z.add Z.mul Pos.add Pos.mul Z.opp] in P.
  set (P1 := map2 f64_mul _ _) in *; set (P2 := map2 f64_mul _ (@deviations F64 (f64_num L) ys')) in *; clearbody P1 P2.
  assert (D : Forall2 (sc (e + f) (-556) 1 266) (map (fun v => f64_div v #(len ys)) P1) (map (fun v => f64_div v #(len ys)) P2)).
  { clear - P Hn He Hf; change (-556) with (-472 - 84); induction P as [|a b P1 P2 H _ IH]; cbn [map]; constructor; [|exact IH]; apply div_sc; try lia; [apply okay; lia|exact H]. }
  assert (FM : forall l (a : F64), fold_left (fun acc v => f64_add acc (f64_div v #(len ys))) l a = fold_left f64_add (map (fun v => f64_div v #(len ys)) l) a) by (induction l as [|v l IH]; intros a; cbn [fold_left map]; [reflexivity|apply IH]).
  rewrite !FM; eapply sc_rescaled; apply (sum_sc (e + f) (-556) 266 1 ltac:(lia) _ _ D 0); [lia|rewrite len_map, LP; apply okay; lia|apply zero_sc].
Qed.
Print Assumptions C146_covariance.

(** ** products of vectors *)
Lemma Forall2_map2 {A B C D E F} (P : A -> D -> Prop) (Q : B -> E -> Prop) (R : C -> F -> Prop) (f : A -> B -> C) (g : D -> E -> F) :
  (forall a b d e, P a d -> Q b e -> R (f a b) (g d e)) -> forall l l', Forall2 P l l' -> forall m m', Forall2 Q m m' -> Forall2 R (map2 f l m) (map2 g l' m').
Proof. intros H; induction 1 as [|a d l l' Ha _ IH]; intros m m' HM; destruct HM; cbn [map2]; constructor; auto. Qed.
Lemma ordinary_rows e ra ra' : Forall (Forall ordinary) ra -> Forall2 (Forall2 (rescaled e)) ra ra' -> Forall2 (Forall2 (sc e (-152) 1 100)) ra ra'.
Proof. intros M H; induction H as [|x y xs ys Hx _ IH]; constructor; inversion M; subst; [apply ordinary_list; assumption|apply IH; assumption]. Qed.
Lemma sc_rows e g k h ra ra' : Forall2 (Forall2 (sc e g k h)) ra ra' -> Forall2 (Forall2 (rescaled e)) ra ra'.
Proof.
  induction 1 as [|x y xs ys Hx _ IH]; constructor; [|exact IH]; clear - Hx; induction Hx; constructor; [eapply sc_rescaled; eassumption|assumption].
Qed.
Lemma Forall2_conj_l {A B} (P : A -> Prop) (Q : A -> B -> Prop) l l' : Forall P l -> Forall2 Q l l' -> Forall2 (fun a b => P a /\ Q a b) l l'.
Proof. intros HP H; induction H; constructor; inversion HP; subst; auto. Qed.

Theorem C146_dot :
  forall (L : Libm) (a a' b b' : Serie F64) k ra ra' rb rb' e f, repr a k ra -> repr a' k ra' -> repr b k rb -> repr b' k rb' -> ra <> [] -> length ra = length rb ->
  Forall (Forall ordinary) ra -> Forall (Forall ordinary) rb -> Forall2 (Forall2 (rescaled e)) ra ra' -> Forall2 (Forall2 (rescaled f)) rb rb' -> Z.abs e <= 100 -> Z.abs f <= 100 ->
  exists ds ds', @dot F64 (f64_num L) a b = Ok (mk 1 (col ds) 3) /\ @dot F64 (f64_num L) a' b' = Ok (mk 1 (col ds') 3) /\ Forall2 (rescaled (e + f)) ds ds'.
Proof.
  intros L a a' b b' k ra ra' rb rb' e f Ha Ha' Hb Hb' Hne Hl Ma Mb HA HB He Hf.
  pose proof (Forall2_len _ _ _ HA) as La; pose proof (Forall2_len _ _ _ HB) as Lb; unfold len in La, Lb.
  do 2 eexists; split; [apply (dot_ok F64 (f64_num L) a b k ra rb); try assumption; lia|].
  split; [apply (dot_ok F64 (f64_num L) a' b' k ra' rb'); try assumption; [intros ->; destruct ra; [congruence|discriminate]|lia]|].
  pose proof (ordinary_rows e ra ra' Ma HA) as SA; pose proof (ordinary_rows f rb rb' Mb HB) as SB.
  pose proof (repr_rows _ _ _ Ha) as Ra; unfold rows_of_size in Ra.
  assert (Kb : k < 4294967296).
  { assert (X : k * len ra < 4294967296) by apply Ha; destruct ra; [congruence|]; rewrite len_cons in X; pose proof (len_nonneg ra); unfold repr in Ha; nia. }
  eapply Forall2_map2; [|exact (Forall2_conj_l _ _ _ _ Ra SA)|exact SB].
  intros u v u' v' [Lu HU] HV; unfold sum_prod; cbn [n_add n_mul n_of_Z f64_num].
  pose proof (prod_sc e f (-152) (-152) 100 100 1 1 ltac:(apply okay; lia) _ _ HU _ _ HV) as P; cbn [Z.add Z.mul Pos.add Pos.mul Z.opp] in P.
  assert (LP : len (map2 f64_mul u v) <= k) by (rewrite <- Lu; unfold len; clear; revert v; induction u as [|x u IH]; intros [|y v]; cbn [map2 length]; try lia; specialize (IH v); lia).
  pose proof (len_nonneg (map2 f64_mul u v)).
  eapply sc_rescaled; apply (sum_sc (e + f) (-304) 200 1 ltac:(lia) _ _ P 0); [lia|apply okay; lia|apply zero_sc].
Qed.
Print Assumptions C146_dot.

Lemma minus_sc e f g h u v w z u' v' w' z' : Z.abs e <= 100 -> Z.abs f <= 100 -> -300 <= g -> 0 <= h <= 200 ->
  sc e g 1 h u u' -> sc f g 1 h v v' -> sc e g 1 h w w' -> sc f g 1 h z z' -> sc (e + f) (g + g) 2 (h + h) (f64_sub (f64_mul u v) (f64_mul w z)) (f64_sub (f64_mul u' v') (f64_mul w' z')).
Proof.
  intros He Hf Hg Hh H1 H2 H3 H4; assert (O : ok (e + f) (g + g) (1 * 1) (h + h)) by (apply okay; lia).
  change 2 with (1 * 1 + 1 * 1); apply sub_sc; [apply okay; lia|apply mul_sc; assumption|apply mul_sc; assumption].
Qed.
Theorem C146_cross :
  forall (L : Libm) (a a' b b' : Serie F64) ra ra' rb rb' e f, repr a 3 ra -> repr a' 3 ra' -> repr b 3 rb -> repr b' 3 rb' -> ra <> [] -> length ra = length rb ->
  Forall (Forall ordinary) ra -> Forall (Forall ordinary) rb -> Forall2 (Forall2 (rescaled e)) ra ra' -> Forall2 (Forall2 (rescaled f)) rb rb' -> Z.abs e <= 100 -> Z.abs f <= 100 ->
  exists cs cs', @cross F64 (f64_num L) a b = Ok (mk 3 cs 3) /\ @cross F64 (f64_num L) a' b' = Ok (mk 3 cs' 3) /\ Forall2 (Forall2 (rescaled (e + f))) cs cs'.
Proof.
  intros L a a' b b' ra ra' rb rb' e f Ha Ha' Hb Hb' Hne Hl Ma Mb HA HB He Hf.
  pose proof (Forall2_len _ _ _ HA) as La; pose proof (Forall2_len _ _ _ HB) as Lb; unfold len in La, Lb.
  do 2 eexists; split; [apply (cross_ok F64 (f64_num L) a b ra rb); try assumption; lia|].
  split; [apply (cross_ok F64 (f64_num L) a' b' ra' rb'); try assumption; [intros ->; destruct ra; [congruence|discriminate]|lia]|].
  pose proof (ordinary_rows e ra ra' Ma HA) as SA; pose proof (ordinary_rows f rb rb' Mb HB) as SB.
  apply (sc_rows (e + f) (-152 + -152) 2 (100 + 100)).
  pose proof (repr_rows _ _ _ Ha) as Ra; pose proof (repr_rows _ _ _ Hb) as Rb; unfold rows_of_size in Ra, Rb.
  eapply Forall2_map2; [|exact (Forall2_conj_l _ _ _ _ Ra SA)|exact (Forall2_conj_l _ _ _ _ Rb SB)].
  intros u v u' v' [Lu HU] [Lv HV]; destruct (len3 u Lu) as (u0 & u1 & u2 & ->); destruct (len3 v Lv) as (v0 & v1 & v2 & ->).
  inversion HU as [|? x0 ? ? U0 HU1]; subst; inversion HU1 as [|? x1 ? ? U1 HU2]; subst; inversion HU2 as [|? x2 ? ? U2 HU3]; subst; inversion HU3; subst.
  inversion HV as [|? y0 ? ? V0 HV1]; subst; inversion HV1 as [|? y1 ? ? V1 HV2]; subst; inversion HV2 as [|? y2 ? ? V2 HV3]; subst; inversion HV3; subst.
  cbn [crossp n_sub n_mul f64_num]; repeat apply Forall2_cons; try apply Forall2_nil; apply minus_sc; (assumption || lia).
Qed.
Print Assumptions C146_cross.

(** ** determinants *)
Lemma Forall2_cons_inv {A B} (P : A -> B -> Prop) x xs ys : Forall2 P (x :: xs) ys -> exists y ys', ys = y :: ys' /\ P x y /\ Forall2 P xs ys'.
Proof. inversion 1; subst; eauto. Qed.
Lemma triple_sc e x y z x' y' z' : Z.abs e <= 100 -> sc e (-152) 1 100 x x' -> sc e (-152) 1 100 y y' -> sc e (-152) 1 100 z z' ->
  sc (e + e + e) (-456) 1 300 (f64_mul (f64_mul x y) z) (f64_mul (f64_mul x' y') z').
Proof.
  intros He H1 H2 H3; change (-456) with (-152 + -152 + -152); change 300 with (100 + 100 + 100); change 1 with (1 * 1) at 1; apply mul_sc; [apply okay; lia| |exact H3].
  change 1 with (1 * 1) at 1; apply mul_sc; [apply okay; lia|assumption|assumption].
Qed.
Ltac rows_inv H := match type of H with Forall2 _ (_ :: _) _ => let y := fresh "y" in let ys := fresh "ys" in let E := fresh "E" in let H1 := fresh "H1" in apply Forall2_cons_inv in H; destruct H as (y & ys & E & H1 & H); subst; rows_inv H | Forall2 _ [] _ => inversion H; subst; clear H end.
Theorem C146_det :
  forall (L : Libm) (s s' : Serie F64) n rows rows' e, (n = 2 \/ n = 3)%nat ->
  repr s (Z.of_nat (n * n)) rows -> dimension s = Z.of_nat n -> repr s' (Z.of_nat (n * n)) rows' -> dimension s' = Z.of_nat n -> rows <> [] ->
  Forall (Forall ordinary) rows -> Forall2 (Forall2 (rescaled e)) rows rows' -> Z.abs e <= 100 ->
  exists ds ds', @det F64 (f64_num L) s = Ok (mk 1 (col ds) 3) /\ @det F64 (f64_num L) s' = Ok (mk 1 (col ds') 3) /\ Forall2 (rescaled (Z.of_nat n * e)) ds ds'.
Proof.
  intros L s s' n rows rows' e Hn Hs Hd Hs' Hd' Hne M H He.
  do 2 eexists; split; [apply (det_f64 L s n rows); assumption|]; split; [apply (det_f64 L s' n rows'); try assumption; intros ->; inversion H; congruence|].
  pose proof (ordinary_rows e rows rows' M H) as S; pose proof (repr_rows _ _ _ Hs) as Rr; unfold rows_of_size in Rr.
  pose proof (Forall2_conj_l _ _ _ _ Rr S) as K; clear - K Hn He.
  induction K as [|u u' rows rows' [Lu HU] _ IH]; cbn [map]; constructor; [|exact IH].
  destruct Hn as [-> | ->]; unfold len in Lu.
  - destruct u as [|a [|b [|c [|d [|]]]]]; cbn [length] in Lu; try lia; rows_inv HU.
    cbn [det_of]; unfold det2; replace (Z.of_nat 2 * e) with (e + e) by lia; eapply sc_rescaled, minus_sc; try eassumption; lia.
  - destruct u as [|u0 [|u1 [|u2 [|u3 [|u4 [|u5 [|u6 [|u7 [|u8 [|]]]]]]]]]]; cbn [length] in Lu; try lia; rows_inv HU.
    cbn [det_of]; unfold det3; replace (Z.of_nat 3 * e) with (e + e + e) by lia; eapply (sc_rescaled _ (-456) (1 + 1 + 1 + 1 + 1 + 1) 300).
    apply sub_sc; [apply okay; lia| |apply triple_sc; assumption].
    apply add_sc; [apply okay; lia| |apply triple_sc; assumption].
    apply add_sc; [apply okay; lia| |apply triple_sc; assumption].
    apply sub_sc; [apply okay; lia| |apply triple_sc; assumption].
    apply sub_sc; [apply okay; lia| |apply triple_sc; assumption].
    apply triple_sc; assumption.
Qed.
Print Assumptions C146_det.

(** ** normals of a mesh *)
Lemma nth_sc e ps ps' i : Forall2 (Forall2 (sc e (-152) 1 100)) ps ps' -> Forall2 (sc e (-152) 1 100) (nth i ps []) (nth i ps' []).
Proof. intros H; revert i; induction H; intros [|i]; cbn [nth]; auto. Qed.
Lemma diff_sc e x y x' y' : Z.abs e <= 100 -> sc e (-152) 1 100 x x' -> sc e (-152) 1 100 y y' -> sc e (-152) 1 101 (f64_sub x y) (f64_sub x' y').
Proof. intros He H1 H2; change 101 with (100 + 1); apply (sc_up e (-152) 2); [lia|lia|]; change 2 with (1 + 1); apply sub_sc; [apply okay; lia|assumption|assumption]. Qed.
Theorem C146_normals :
  forall (L : Libm) (positions positions' indices : Serie F64) ps ps' (ts : list tri) e,
  repr positions 3 ps -> repr positions' 3 ps' -> repr indices 3 (map ftri_row ts) -> Forall (tri_in (length ps)) ts ->
  Forall (Forall ordinary) ps -> Forall2 (Forall2 (rescaled e)) ps ps' -> Z.abs e <= 100 ->
  exists ns ns', @normals F64 (f64_num L) positions indices = Ok (mk 3 ns 3) /\ @normals F64 (f64_num L) positions' indices = Ok (mk 3 ns' 3) /\ Forall2 (Forall2 (rescaled (e + e))) ns ns'.
Proof.
  intros L positions positions' indices ps ps' ts e Hp Hp' Hi Ht M H He.
  assert (El : length ps' = length ps) by (pose proof (Forall2_len _ _ _ H) as X; unfold len in X; lia).
  do 2 eexists; split; [apply (normals_f64 L positions indices ps ts); assumption|]; split; [apply (normals_f64 L positions' indices ps' ts); try assumption; rewrite El; exact Ht|].
  pose proof (ordinary_rows e ps ps' M H) as S; pose proof (repr_rows _ _ _ Hp) as Rr; pose proof (repr_rows _ _ _ Hp') as Rr'.
  apply (sc_rows (e + e) (-152 + -152) 2 (101 + 101)).
  assert (K : Forall (tri_in (length ps')) ts) by (rewrite El; exact Ht); clear - Ht K S Rr Rr' He.
  induction Ht as [|t ts T _ IH]; cbn [map]; constructor; [|apply IH; inversion K; assumption]; clear IH; apply Forall_inv in K.
  destruct (at_len ps t Rr T) as (L1 & L2 & L3 & _); destruct (at_len ps' t Rr' K) as (L1' & L2' & L3' & _); destruct t as [[i j] k]; cbn [at1 at2 at3] in *.
  pose proof (nth_sc e ps ps' i S) as S1; pose proof (nth_sc e ps ps' j S) as S2; pose proof (nth_sc e ps ps' k S) as S3.
  destruct (len3 _ L1) as (p0 & p1 & p2 & E1); destruct (len3 _ L2) as (q0 & q1 & q2 & E2); destruct (len3 _ L3) as (r0 & r1 & r2 & E3).
  destruct (len3 _ L1') as (p0' & p1' & p2' & E1'); destruct (len3 _ L2') as (q0' & q1' & q2' & E2'); destruct (len3 _ L3') as (r0' & r1' & r2' & E3').
  rewrite E1, E1' in *; rewrite E2, E2' in *; rewrite E3, E3' in *.
  inversion S1 as [|? ? ? ? P0 S1']; subst; inversion S1' as [|? ? ? ? P1 S1'']; subst; inversion S1'' as [|? ? ? ? P2 _]; subst.
  inversion S2 as [|? ? ? ? Q0 S2']; subst; inversion S2' as [|? ? ? ? Q1 S2'']; subst; inversion S2'' as [|? ? ? ? Q2 _]; subst.
  inversion S3 as [|? ? ? ? R0 S3']; subst; inversion S3' as [|? ? ? ? R1 S3'']; subst; inversion S3'' as [|? ? ? ? R2 _]; subst.
  unfold normal3; cbn [sub3 map2 cross3]; cbn [n_sub n_mul F64N f64_num].
  repeat apply Forall2_cons; try apply Forall2_nil; apply minus_sc; try lia; apply diff_sc; assumption.
Qed.
Print Assumptions C146_normals.

(** ** directions: the same digits *)
Lemma sqrt_sc e k x y : Z.abs e <= 100 -> 1 <= k <= 2 ^ 32 -> (0 < B2R x)%R -> sc (e + e) (-304) k 200 x y ->
  sc e (-204) 1 116 (f64_sqrt x) (f64_sqrt y) /\ (bpow radix2 (-152) <= B2R (f64_sqrt x))%R.
Proof.
  intros He Hk Px [Fx Fy E G B]; pose proof (bpow_gt_0 radix2 (e + e)) as Pe; rewrite Rabs_pos_eq in B by lra.
  destruct (sqrt_finite x Fx ltac:(lra)) as [Fs Es]; destruct (sqrt_finite y Fy ltac:(rewrite E; nra)) as [Fs' Es'].
  assert (Er : sqrt (B2R y) = (sqrt (B2R x) * bpow radix2 e)%R) by (rewrite E, bpow_plus, sqrt_mult_alt by lra; f_equal; apply sqrt_square, bpow_ge_0).
  assert (Lx : (bpow radix2 (-304) <= B2R x)%R) by (pose proof (grid_above _ _ G ltac:(lra)) as X; rewrite Rabs_pos_eq in X by lra; exact X).
  assert (L : (bpow radix2 (-152) <= sqrt (B2R x))%R) by (rewrite <- (sqrt_square (bpow radix2 (-152))) by apply bpow_ge_0; rewrite <- bpow_plus; apply sqrt_le_1_alt; exact Lx).
  assert (U : (sqrt (B2R x) <= 1 * bpow radix2 116)%R).
  { rewrite Rmult_1_l, <- (sqrt_square (bpow radix2 116)) by apply bpow_ge_0; rewrite <- bpow_plus; apply sqrt_le_1_alt, Rle_trans with (1 := B); change (116 + 116) with (32 + 200); rewrite (bpow_plus radix2 32).
    apply Rmult_le_compat_r; [apply bpow_ge_0|]; change (bpow radix2 32) with (IZR (2 ^ 32)); apply IZR_le; lia. }
  pose proof (bpow_gt_0 radix2 (-152)) as P1; pose proof (bpow_gt_0 radix2 e) as P2.
  assert (R : (bpow radix2 (-152) <= B2R (f64_sqrt x))%R) by (rewrite Es; apply round_ge_generic; [exact fexp_valid|apply valid_rnd_N|apply generic_format_bpow; unfold SpecFloat.fexp, SpecFloat.emin; lia|exact L]).
  split; [|exact R]; apply (op_sc e (-204) 1 116 (sqrt (B2R x)) (sqrt (B2R y))); try (intros _; split; assumption).
  - apply okay; lia.
  - exact Er.
  - right; rewrite Rabs_pos_eq by lra; apply Rle_trans with (2 := L), bpow_le; lia.
  - right; rewrite Er, Rabs_pos_eq by nra; apply Rle_trans with (bpow radix2 (-152) * bpow radix2 e)%R; [rewrite <- bpow_plus; apply bpow_le; lia|apply Rmult_le_compat_r; lra].
  - rewrite Rabs_pos_eq by lra; exact U.
  - rewrite <- Es; change (-204) with (-152 - 52); apply grid_double; right; rewrite Rabs_pos_eq by lra; exact R.
Qed.
Lemma inv_sc e x y : Z.abs e <= 100 -> sc e (-204) 1 116 x y -> (bpow radix2 (-152) <= B2R x)%R -> sc (- e) (-168) 1 152 (f64_div #1 x) (f64_div #1 y).
Proof.
  intros He [Fx Fy E G B] R; pose proof (bpow_gt_0 radix2 (-152)) as P1; pose proof (bpow_gt_0 radix2 e) as P2; rewrite Rmult_1_l, Rabs_pos_eq in B by lra.
  destruct (f64_of_Z_correct 1 ltac:(lia)) as (E1 & F1 & _).
  assert (Nx : B2R x <> 0%R) by lra; assert (Ny : B2R y <> 0%R) by (rewrite E; nra).
  assert (Lo : (bpow radix2 (-116) <= / B2R x)%R) by (change (-116) with (- (116)); rewrite bpow_opp; apply Rinv_le_contravar; lra).
  assert (Up : (/ B2R x <= bpow radix2 152)%R) by (change 152 with (- (-152)); rewrite bpow_opp; apply Rinv_le_contravar; lra).
  pose proof (bpow_gt_0 radix2 (-116)) as P3.
  assert (Q : (B2R #1 / B2R x = / B2R x)%R) by (rewrite E1; unfold Rdiv; ring).
  assert (Qy : (B2R #1 / B2R y = / B2R x * bpow radix2 (- e))%R) by (rewrite E1, E, bpow_opp; field; lra).
  assert (Hq : B2R (f64_div #1 x) = rnd (/ B2R x) /\ is_finite (f64_div #1 x) = true).
  { rewrite <- Q; apply div_ok; try assumption; rewrite Q; apply (bound_range _ 1 152); [lia|lia|rewrite Rabs_pos_eq by lra; lra]. }
  apply (op_sc (- e) (-168) 1 152 (/ B2R x) (B2R #1 / B2R y)).
  - apply okay; lia.
  - exact Qy.
  - right; rewrite Rabs_pos_eq by lra; apply Rle_trans with (2 := Lo), bpow_le; lia.
  - pose proof (bpow_gt_0 radix2 (- e)); right; rewrite Qy, Rabs_pos_eq by nra; apply Rle_trans with (bpow radix2 (-116) * bpow radix2 (- e))%R; [rewrite <- bpow_plus; apply bpow_le; lia|apply Rmult_le_compat_r; lra].
  - rewrite Rabs_pos_eq by lra; lra.
  - intros _; exact Hq.
  - apply div_ok; assumption.
  - destruct Hq as [<- _]; change (-168) with (-116 - 52); apply grid_double; right; rewrite Rabs_pos_eq.
    + destruct (div_ok #1 x F1 Nx) as [-> _]; [rewrite Q; apply (bound_range _ 1 152); [lia|lia|rewrite Rabs_pos_eq by lra; lra]|].
      rewrite Q; apply round_ge_generic; [exact fexp_valid|apply valid_rnd_N|apply generic_format_bpow; unfold SpecFloat.fexp, SpecFloat.emin; lia|exact Lo].
    + destruct (div_ok #1 x F1 Nx) as [-> _]; [rewrite Q; apply (bound_range _ 1 152); [lia|lia|rewrite Rabs_pos_eq by lra; lra]|].
      rewrite Q, <- rnd_0; apply rnd_le; lra.
Qed.
Theorem C146_normalize :
  forall (L : Libm) (s s' : Serie F64) k rows rows' e, 2 <= k -> repr s k rows -> repr s' k rows' -> rows <> [] ->
  Forall (Forall ordinary) rows -> Forall (Exists (fun x => B2R x <> 0%R)) rows -> Forall2 (Forall2 (rescaled e)) rows rows' -> Z.abs e <= 100 ->
  exists us us', @normalize F64 (f64_num L) s = Ok (mk k us 3) /\ @normalize F64 (f64_num L) s' = Ok (mk k us' 3) /\ Forall2 (Forall2 (rescaled 0)) us us'.
Proof.
  intros L s s' k rows rows' e Hk Hs Hs' Hne M N H He.
  do 2 eexists; split; [apply (normalize_vector_f64 L s k rows); assumption|]; split; [apply (normalize_vector_f64 L s' k rows'); try assumption; intros ->; inversion H; congruence|].
  pose proof (ordinary_rows e rows rows' M H) as S; pose proof (repr_rows _ _ _ Hs) as Rr; unfold rows_of_size in Rr.
  pose proof (repr_bounds _ _ _ Hs) as (Kb & _ & _).
  pose proof (Forall2_conj_l _ _ _ _ M (Forall2_conj_l _ _ _ _ N (Forall2_conj_l _ _ _ _ Rr S))) as K; apply (sc_rows 0 (-152 + -168) (1 * 1) (100 + 152)); clear - K Kb Hk He.
  induction K as [|u u' rows rows' (Mu & Nu & Lu & HU) _ IH]; cbn [map]; constructor; [|exact IH]; clear IH.
  assert (SQ : forall l (a : F64), fold_left (fun a v => f64_add a (f64_mul v v)) l a = fold_left f64_add (map2 f64_mul l l) a) by (induction l as [|v l IH]; intros a; cbn [fold_left map2]; [reflexivity|apply IH]).
  pose proof (prod_sc e e (-152) (-152) 100 100 1 1 ltac:(apply okay; lia) _ _ HU _ _ HU) as P; cbn [Z.add Z.mul Pos.add Pos.mul Z.opp] in P.
  assert (LP : len (map2 f64_mul u u) = k) by (rewrite len_map2; [exact Lu|reflexivity]).
  pose proof (sum_sc (e + e) (-304) 200 1 ltac:(lia) _ _ P 0 #0 #0 ltac:(lia)) as S; rewrite LP in S; replace (0 + 1 * k) with k in S by lia; specialize (S ltac:(apply okay; lia) ltac:(apply zero_sc)).
  rewrite <- !SQ in S.
  assert (S0 : (0 < B2R (fold_left (fun a v => f64_add a (f64_mul v v)) u #0))%R).
  { destruct (squares_above u #0 ltac:(rewrite (proj1 zero_B2R); lra) (sc_x _ _ _ _ _ _ S)) as (_ & _ & Sx).
    apply Exists_exists in Nu as (x & Hx & Nx); destruct (Sx x Hx) as [_ Lx]; apply Rlt_le_trans with (2 := Lx), Rlt_le_trans with (bpow radix2 (-200)); [apply bpow_gt_0|].
    apply round_ge_generic; [exact fexp_valid|apply valid_rnd_N|apply generic_format_bpow; unfold SpecFloat.fexp, SpecFloat.emin; lia|].
    rewrite Forall_forall in Mu; destruct (Mu x Hx) as [_ [Z0|[B _]]]; [contradiction|].
    rewrite <- (Rabs_pos_eq (B2R x * B2R x)) by nra; rewrite Rabs_mult; change (-200) with (-100 + -100); rewrite bpow_plus; pose proof (bpow_gt_0 radix2 (-100)); nra. }
  destruct (sqrt_sc e k _ _ He ltac:(lia) S0 S) as [SR RL]; pose proof (inv_sc e _ _ He SR RL) as I.
  change (f64_sqrt (fold_left (fun a v => f64_add a (f64_mul v v)) u #0)) with (length_of u) in I; change (f64_sqrt (fold_left (fun a v => f64_add a (f64_mul v v)) u' #0)) with (length_of u') in I.
  unfold unit_of; set (i := f64_div #1 (length_of u)) in *; set (i' := f64_div #1 (length_of u')) in *; clearbody i i'; clear - HU I He.
  induction HU as [|x y u u' Hx _ IH]; cbn [map]; constructor; [|exact IH].
  replace 0 with (e + - e) at 1 by lia; apply mul_sc; [apply okay; lia|exact Hx|exact I].
Qed.
Print Assumptions C146_normalize.

(** ** quantiles and outliers *)
Lemma sorted_scale (xs ys ss ts : list F64) e : Forall2 (rescaled e) xs ys -> Permutation xs ss -> Permutation ys ts -> fsorted ss -> fsorted ts -> map B2R ts = map (fun r => r * bpow radix2 e)%R (map B2R ss).
Proof.
  intros H Px Py Sx Sy; apply sorted_eq.
  - apply Permutation_trans with (map B2R ys); [apply Permutation_map, Permutation_sym; exact Py|].
    replace (map B2R ys) with (map (fun r => r * bpow radix2 e)%R (map B2R xs)); [apply Permutation_map, Permutation_map; exact Px|].
    clear - H; induction H as [|x y xs ys (_ & _ & E) _ IH]; cbn [map]; [reflexivity|f_equal; [symmetry; exact E|exact IH]].
  - clear - Sy; induction Sy as [|x l _ IH Ha]; [constructor|]; cbn [map]; constructor; [exact IH|]; apply Forall_map; exact Ha.
  - clear - Sx; induction Sx as [|x l _ IH Ha]; [constructor|]; cbn [map]; constructor; [exact IH|]; rewrite map_map; apply Forall_map; eapply Forall_impl; [|exact Ha]; cbn beta; intros y Hy; apply Rmult_le_compat_r; [apply bpow_ge_0|exact Hy].
Qed.
Lemma rescaled_close e xs ys : Z.abs e <= 100 -> Forall ordinary xs -> Forall2 (rescaled e) xs ys -> close xs /\ close ys.
Proof.
  intros He M H; split; [apply (close_small xs (bpow radix2 100)); [|apply bpow_le; lia]|apply (close_small ys (bpow radix2 200)); [|apply bpow_le; lia]].
  - eapply Forall_impl; [|exact M]; intros x [F [-> |[_ B]]]; split; try exact F; [rewrite Rabs_R0; apply bpow_ge_0|exact B].
  - clear - H M He; induction H as [|x y xs ys (Fx & Fy & E) _ IH]; constructor; [|apply IH; inversion M; assumption]; split; [exact Fy|]; apply Forall_inv in M.
    rewrite E; apply Rle_trans with (bpow radix2 100 * bpow radix2 e)%R; [apply abs_scale; destruct M as [_ [-> |[_ B]]]; [rewrite Rabs_R0; apply bpow_ge_0|exact B]|rewrite <- bpow_plus; apply bpow_le; lia].
Qed.
Section Quantiles.
  Variables (L : Libm) (sorter : Sorter) (s s' : Serie F64) (xs ys : list F64) (e : Z).
  Hypotheses (Hc : conforms sorter) (Hs : repr s 1 (col xs)) (Hs' : repr s' 1 (col ys)) (Hne : xs <> []) (M : Forall ordinary xs) (H : Forall2 (rescaled e) xs ys) (He : Z.abs e <= 100).
  Lemma at_sc i : 0 <= i < len xs -> sc e (-152) 1 100 (at_ L sorter xs i) (at_ L sorter ys i).
  Proof.
    intros Hi; destruct (rescaled_close e xs ys He M H) as [Cx Cy].
    assert (Hi' : 0 <= i < len ys) by (rewrite (Forall2_len _ _ _ H); exact Hi).
    assert (Iny : In (at_ L sorter ys i) ys) by (exact (at_in L sorter Hc ys Cy #0 i Hi')); assert (Inx : In (at_ L sorter xs i) xs) by (exact (at_in L sorter Hc xs Cx #0 i Hi)).
    apply ordinary_sc; [apply (proj1 (Forall_forall _ _) M); exact Inx|]; split; [|split]; [apply (proj1 (Forall_forall _ _) (proj1 Cx)); exact Inx|apply (proj1 (Forall_forall _ _) (proj1 Cy)); exact Iny|].
    pose proof (sorted_scale xs ys _ _ e H (sorted_perm L sorter Hc xs Cx) (sorted_perm L sorter Hc ys Cy) (sorted_ss L sorter Hc xs Cx) (sorted_ss L sorter Hc ys Cy)) as E.
    unfold at_; rewrite <- !nth_map_B2R, E.
    rewrite <- (map_nth (fun r => r * bpow radix2 e)%R), Rmult_0_l; reflexivity.
  Qed.
  Lemma quantile_sc q : ordinary q -> (0 <= B2R q <= 1)%R -> exists v v', @quantile F64 (f64_num L) sorter s q = Ok v /\ @quantile F64 (f64_num L) sorter s' q = Ok v' /\ sc e (-304) 3 100 v v'.
  Proof.
    intros [Fq Mq] Hq; destruct (rescaled_close e xs ys He M H) as [Cx Cy].
    assert (Hne' : ys <> []) by (intros ->; inversion H; congruence).
    do 2 eexists; split; [apply (quantile_steps L sorter Hc s xs Hs Hne Cx q Fq Hq)|]; split; [apply (quantile_steps L sorter Hc s' ys Hs' Hne' Cy q Fq Hq)|].
    rewrite (Forall2_len _ _ _ H).
    pose proof (pos_ok L sorter s xs Hs Hne Cx q Fq Hq) as (Fp & Ep & Bp); pose proof (rest_ok L sorter s xs Hs Hne Cx q Fq Hq) as (Fr & Er & Br); pose proof (b_ok L sorter s xs Hs Hne Cx q Fq Hq) as Hb.
    assert (G : grid (-152) (B2R (f64_mul #(len xs - 1) q))).
    { rewrite Ep; apply grid_rnd; [lia|]; change (-152) with (0 + -152); apply grid_mul; [exists (len xs - 1); cbn [bpow]; ring|]; change (-152) with (-100 - 52); apply grid_double; destruct Mq as [Z0|[Z0 _]]; auto. }
    set (p := f64_mul #(len xs - 1) q) in *; clearbody p.
    assert (R : sc 0 (-152) 1 0 (f64_sub p (Bnearbyint mode_DN p)) (f64_sub p (Bnearbyint mode_DN p))).
    { split; [exact Fr|exact Fr|cbn [bpow]; ring|rewrite Er; apply grid_sub; [exact G|]; apply (grid_le 0); [lia|]; exists (Zfloor (B2R p)); cbn [bpow]; ring|cbn [bpow]; rewrite Rabs_pos_eq; lra]. }
    set (r := f64_sub p _) in *; clearbody r; set (b := Zfloor (B2R p)) in *; clearbody b.
    destruct (Z.ltb_spec (b + 1) (len xs)) as [X|X].
    - change 3 with (1 + 2); apply add_sc; [apply okay; lia|apply (sc_le e (-152) _ 1 _ 100); [lia|lra|apply at_sc; lia]|].
      replace e with (0 + e) by lia; change (-304) with (-152 + -152); change 2 with (1 * (1 + 1)); change 100 with (0 + 100); apply mul_sc; [apply okay; lia|exact R|]; apply sub_sc; [apply okay; lia|apply at_sc; lia|apply at_sc; lia].
    - apply (sc_le e (-152) _ 1 _ 100); [lia| |apply at_sc; lia]; pose proof (bpow_gt_0 radix2 100); lra.
  Qed.
End Quantiles.
Theorem C146_quantile :
  forall (L : Libm) (sorter : Sorter) (s s' : Serie F64) xs ys e q, conforms sorter -> repr s 1 (col xs) -> repr s' 1 (col ys) -> xs <> [] -> Forall ordinary xs -> Forall2 (rescaled e) xs ys -> Z.abs e <= 100 ->
  ordinary q -> (0 <= B2R q <= 1)%R ->
  exists v v', @quantile F64 (f64_num L) sorter s q = Ok v /\ @quantile F64 (f64_num L) sorter s' q = Ok v' /\ rescaled e v v'.
Proof.
  intros L sorter s s' xs ys e q Hc Hs Hs' Hne M H He Mq Hq; destruct (quantile_sc L sorter s s' xs ys e Hc Hs Hs' Hne M H He q Mq Hq) as (v & v' & E & E' & S).
  exists v, v'; split; [exact E|]; split; [exact E'|]; eapply sc_rescaled; exact S.
Qed.
Print Assumptions C146_quantile.
Lemma quarter_ordinary a : 1 <= a <= 3 -> ordinary (f64_div #a #4) /\ (0 <= B2R (f64_div #a #4) <= 1)%R.
Proof.
  intros Ha; destruct (ratio_B2R a 2 ltac:(lia) ltac:(lia)) as [E F]; change (2 ^ 2) with 4 in *; rewrite E.
  assert (A : (1 <= IZR a <= 3)%R) by (split; apply IZR_le; lia).
  split; [split; [exact F|right; rewrite E, Rabs_pos_eq by lra]|lra].
  split; [apply Rle_trans with (bpow radix2 (-2)); [apply bpow_le; lia|rewrite bpow_quarter; lra]|apply Rle_trans with (bpow radix2 0); [cbn [bpow]; lra|apply bpow_le; lia]].
Qed.
Lemma le_sc e g k h g' k' h' x y x' y' : sc e g k h x y -> sc e g' k' h' x' y' -> Bleb y y' = Bleb x x'.
Proof.
  intros [Fx Fy E _ _] [Fx' Fy' E' _ _]; pose proof (bpow_gt_0 radix2 e); destruct (Bleb x x') eqn:X; [apply le_ok in X; try assumption; apply le_ok; try assumption; rewrite E, E'; apply Rmult_le_compat_r; lra|].
  destruct (Bleb y y') eqn:Y; [|reflexivity]; apply le_ok in Y; try assumption; rewrite E, E' in Y; apply Rmult_le_reg_r in Y; [|assumption].
  rewrite (proj2 (le_ok x x' Fx Fx') Y) in X; discriminate X.
Qed.
Theorem C146_outliers :
  forall (L : Libm) (sorter : Sorter) (s s' : Serie F64) xs ys e m, conforms sorter -> repr s 1 (col xs) -> repr s' 1 (col ys) -> xs <> [] -> Forall ordinary xs -> Forall2 (rescaled e) xs ys -> Z.abs e <= 100 -> ordinary m ->
  (exists i i', @IQR F64 (f64_num L) sorter s = Ok i /\ @IQR F64 (f64_num L) sorter s' = Ok i' /\ rescaled e i i') /\
  (exists mask, @isOutliers F64 (f64_num L) sorter s m = Ok mask /\ @isOutliers F64 (f64_num L) sorter s' m = Ok mask) /\
  (exists os os', @outliers F64 (f64_num L) sorter s m = Ok (mk 1 (col os) 3) /\ @outliers F64 (f64_num L) sorter s' m = Ok (mk 1 (col os') 3) /\ Forall2 (rescaled e) os os') /\
  (exists os os', @notOutliers F64 (f64_num L) sorter s m = Ok (mk 1 (col os) 3) /\ @notOutliers F64 (f64_num L) sorter s' m = Ok (mk 1 (col os') 3) /\ Forall2 (rescaled e) os os').
Proof.
  intros L sorter s s' xs ys e m Hc Hs Hs' Hne M H He Mm.
  destruct (quarter_ordinary 1 ltac:(lia)) as [M1 B1]; destruct (quarter_ordinary 3 ltac:(lia)) as [M3 B3].
  destruct (quantile_sc L sorter s s' xs ys e Hc Hs Hs' Hne M H He _ M1 B1) as (a & a' & Q1 & Q1' & S1).
  destruct (quantile_sc L sorter s s' xs ys e Hc Hs Hs' Hne M H He _ M3 B3) as (b & b' & Q3 & Q3' & S3).
  assert (SI : sc e (-304) (3 + 3) 100 (f64_sub b a) (f64_sub b' a')) by (apply sub_sc; [apply okay; lia|assumption|assumption]).
  assert (Sm : sc 0 (-152) 1 100 m m) by (apply ordinary_sc; [exact Mm|split; [apply Mm|split; [apply Mm|cbn [bpow]; ring]]]).
  assert (SP : sc (0 + e) (-152 + -304) (1 * (3 + 3)) (100 + 100) (f64_mul m (f64_sub b a)) (f64_mul m (f64_sub b' a'))) by (apply mul_sc; [apply okay; lia|assumption|assumption]).
  change (0 + e) with e in SP; cbn [Z.add Z.mul Pos.add Pos.mul Z.opp] in SP.
  assert (UP : forall x y, sc e (-304) 3 100 x y -> sc e (-456) 3 200 x y) by (intros x y; apply sc_le; [lia|]; apply Rmult_le_compat_l; [lra|apply bpow_le; lia]).
  assert (SL : sc e (-456) (3 + 6) 200 (f64_sub a (f64_mul m (f64_sub b a))) (f64_sub a' (f64_mul m (f64_sub b' a')))) by (apply sub_sc; [apply okay; lia|apply UP; assumption|exact SP]).
  assert (SH : sc e (-456) (3 + 6) 200 (f64_add b (f64_mul m (f64_sub b a))) (f64_add b' (f64_mul m (f64_sub b' a')))) by (apply add_sc; [apply okay; lia|apply UP; assumption|exact SP]).
  set (Lo := f64_sub a _) in *; set (Lo' := f64_sub a' _) in *; set (Hi := f64_add b _) in *; set (Hi' := f64_add b' _) in *.
  assert (FE : @fences F64 (f64_num L) sorter s m = Ok (Lo, Hi)) by (unfold fences, q25, q75, n_ratio; cbn [n_div n_of_Z n_sub n_add n_mul f64_num]; rewrite Q1, Q3; reflexivity).
  assert (FE' : @fences F64 (f64_num L) sorter s' m = Ok (Lo', Hi')) by (unfold fences, q25, q75, n_ratio; cbn [n_div n_of_Z n_sub n_add n_mul f64_num]; rewrite Q1', Q3'; reflexivity).
  destruct (C72_mask_and_items F64 (f64_num L) sorter s xs m Lo Hi Hs FE) as (O1 & O2 & O3).
  destruct (C72_mask_and_items F64 (f64_num L) sorter s' ys m Lo' Hi' Hs' FE') as (O1' & O2' & O3').
  cbn [n_ltb n_leb f64_num] in *; clearbody Lo Lo' Hi Hi'.
  pose proof (ordinary_list e xs ys M H) as S.
  split; [exists (f64_sub b a), (f64_sub b' a'); unfold IQR, n_ratio; cbn [n_div n_of_Z n_sub f64_num]; rewrite Q1, Q3, Q1', Q3'; split; [reflexivity|]; split; [reflexivity|]; eapply sc_rescaled; exact SI|].
  split; [|split].
  - eexists; split; [exact O2|]; rewrite O2'; do 3 f_equal; clear - S SL SH; induction S as [|x y xs ys Hx _ IH]; cbn [map]; [reflexivity|f_equal; [|exact IH]].
    rewrite (lt_sc _ _ _ _ _ _ _ _ _ _ _ Hx SL), (lt_sc _ _ _ _ _ _ _ _ _ _ _ SH Hx); reflexivity.
  - do 2 eexists; split; [exact O1|]; split; [exact O1'|]; clear - S SL SH; induction S as [|x y xs ys Hx _ IH]; cbn [filter]; [constructor|].
    rewrite (lt_sc _ _ _ _ _ _ _ _ _ _ _ Hx SL), (lt_sc _ _ _ _ _ _ _ _ _ _ _ SH Hx); destruct (_ || _); [constructor; [eapply sc_rescaled; exact Hx|exact IH]|exact IH].
  - do 2 eexists; split; [exact O3|]; split; [exact O3'|]; clear - S SL SH; induction S as [|x y xs ys Hx _ IH]; cbn [filter]; [constructor|].
    rewrite (le_sc _ _ _ _ _ _ _ _ _ _ _ SL Hx), (le_sc _ _ _ _ _ _ _ _ _ _ _ Hx SH); destruct (_ && _); [constructor; [eapply sc_rescaled; exact Hx|exact IH]|exact IH].
Qed.
Print Assumptions C146_outliers.

(** with very small numbers digits are lost: the squares of 2^-600 vanish, those of 2^-500 do not *)
Theorem C146_dot_refuted :
  exists (a a' : Serie F64) x x', repr a 1 (col [x]) /\ repr a' 1 (col [x']) /\ rescaled 100 x x' /\
  exists d d', @dot F64 F64N a a = Ok (mk 1 (col [d]) 3) /\ @dot F64 F64N a' a' = Ok (mk 1 (col [d']) 3) /\ B2R d = 0%R /\ (0 < B2R d')%R /\ ~ rescaled (100 + 100) d d'.
Proof.
  set (x := @B754_finite 53 1024 false 4503599627370496 (-652) eq_refl : F64); set (x' := @B754_finite 53 1024 false 4503599627370496 (-552) eq_refl : F64).
  assert (Bx : B2R x = bpow radix2 (-600)) by (unfold x; cbn [B2R cond_Zopp]; unfold F2R; cbn [Fnum Fexp]; change (IZR 4503599627370496) with (bpow radix2 52); rewrite <- bpow_plus; reflexivity).
  assert (Bx' : B2R x' = bpow radix2 (-500)) by (unfold x'; cbn [B2R cond_Zopp]; unfold F2R; cbn [Fnum Fexp]; change (IZR 4503599627370496) with (bpow radix2 52); rewrite <- bpow_plus; reflexivity).
  exists (mk 1 (col [x]) 3), (mk 1 (col [x']) 3), x, x'.
  split; [apply repr_col_mk; vm_compute; reflexivity|]; split; [apply repr_col_mk; vm_compute; reflexivity|].
  split; [split; [reflexivity|split; [reflexivity|rewrite Bx, Bx', <- bpow_plus; reflexivity]]|].
  exists (@sum_prod F64 F64N [x] [x]), (@sum_prod F64 F64N [x'] [x']).
  split; [apply (dot_ok F64 F64N _ _ 1 (col [x]) (col [x])); try discriminate; [apply repr_col_mk; vm_compute; reflexivity|apply repr_col_mk; vm_compute; reflexivity|lia]|].
  split; [apply (dot_ok F64 F64N _ _ 1 (col [x']) (col [x'])); try discriminate; [apply repr_col_mk; vm_compute; reflexivity|apply repr_col_mk; vm_compute; reflexivity|lia]|].
  assert (D : B2R (@sum_prod F64 F64N [x] [x]) = 0%R) by (assert (K : is_zero (@sum_prod F64 F64N [x] [x])) by (apply zero_by; vm_compute; reflexivity); destruct K as [u ->]; reflexivity).
  assert (D' : (0 < B2R (@sum_prod F64 F64N [x'] [x']))%R) by (apply above_zero; vm_compute; reflexivity).
  split; [exact D|]; split; [exact D'|]; intros (_ & _ & E); rewrite D in E; lra.
Qed.
Print Assumptions C146_dot_refuted.

(** three lengths in units of 1024 and in units of one *)
Example C146_example : let xs := [#3; #1; #2] in let ys := [#3072; #1024; #2048] in
  repr (mk 1 (col xs) 3) 1 (col xs) /\ repr (mk 1 (col ys) 3) 1 (col ys) /\ Forall ordinary xs /\ Forall2 (rescaled 10) xs ys /\
  ordinary (f64_div #1 #4) /\ (0 <= B2R (f64_div #1 #4) <= 1)%R /\ conforms insertion_sorter.
Proof.
  intros xs ys; split; [apply repr_col_mk; vm_compute; reflexivity|]; split; [apply repr_col_mk; vm_compute; reflexivity|].
  split; [|split; [|split; [apply quarter_ordinary; lia|split; [apply quarter_ordinary; lia|apply insertion_sorter_conforms]]]].
  - repeat (apply Forall_cons; [|]); try apply Forall_nil;
    match goal with |- ordinary (f64_of_Z ?z) => destruct (f64_of_Z_correct z ltac:(lia)) as (E & F & _); split; [exact F|right; rewrite E, Rabs_pos_eq by (apply IZR_le; lia); split; [apply Rle_trans with (bpow radix2 0); [apply bpow_le; lia|apply IZR_le; lia]|apply Rle_trans with (bpow radix2 2); [apply (IZR_le z 4); lia|apply bpow_le; lia]]] end.
  - repeat (apply Forall2_cons; [|]); try apply Forall2_nil;
    match goal with |- rescaled 10 (f64_of_Z ?z) (f64_of_Z ?w) => destruct (f64_of_Z_correct z ltac:(lia)) as (E & F & _); destruct (f64_of_Z_correct w ltac:(lia)) as (E' & F' & _); split; [exact F|split; [exact F'|rewrite E, E'; change (bpow radix2 10) with (IZR 1024); rewrite <- mult_IZR; reflexivity]] end.
Qed.
