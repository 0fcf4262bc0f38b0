(** * binary64: multiplying the operands by powers of two. *)
From Coq Require Import Reals Lra Psatz.
From Flocq Require Import Core IEEE754.BinarySingleNaN.
From Verif Require Import Base Num Serie Spec F64 F64Facts F64Arith F64Round BaseFacts.
Open Scope Z_scope.
Opaque f64_of_Z.

Lemma FLX_scale r e : round radix2 (FLX_exp 53) (Znearest (fun z => negb (Z.even z))) (r * bpow radix2 e) = (round radix2 (FLX_exp 53) (Znearest (fun z => negb (Z.even z))) r * bpow radix2 e)%R.
Proof.
  destruct (Req_dec r 0) as [-> |N]; [rewrite Rmult_0_l, round_0 by apply valid_rnd_N; ring|].
  unfold round, scaled_mantissa, cexp, FLX_exp; rewrite mag_mult_bpow by exact N.
  replace (r * bpow radix2 e * bpow radix2 (- (mag radix2 r + e - 53)))%R with (r * bpow radix2 (- (mag radix2 r - 53)))%R.
  - unfold F2R; cbn [Fnum Fexp]; rewrite Rmult_assoc, <- bpow_plus; do 2 f_equal; ring.
  - rewrite Rmult_assoc, <- bpow_plus; do 2 f_equal; ring.
Qed.
(** zero, or not subnormal *)
Definition normal (r : R) : Prop := r = 0%R \/ (bpow radix2 (-1022) <= Rabs r)%R.
Lemma rnd_FLX r : normal r -> rnd r = round radix2 (FLX_exp 53) (Znearest (fun z => negb (Z.even z))) r.
Proof.
  intros [-> |H]; [rewrite rnd_0, round_0 by apply valid_rnd_N; reflexivity|].
  apply (round_FLT_FLX radix2 (-1074) 53); exact H.
Qed.
Lemma rnd_scale r e : normal r -> normal (r * bpow radix2 e) -> rnd (r * bpow radix2 e) = (rnd r * bpow radix2 e)%R.
Proof. intros H1 H2; rewrite (rnd_FLX _ H1), (rnd_FLX _ H2); apply FLX_scale. Qed.

(** multiples of a power of two *)
Definition grid (g : Z) (r : R) : Prop := exists m, r = (IZR m * bpow radix2 g)%R.
Lemma grid_le g g' r : g' <= g -> grid g r -> grid g' r.
Proof.
  intros H (m & ->); exists (m * 2 ^ (g - g')); rewrite mult_IZR, (IZR_Zpower radix2) by lia.
  rewrite Rmult_assoc, <- bpow_plus; do 2 f_equal; lia.
Qed.
Lemma grid_add g r s : grid g r -> grid g s -> grid g (r + s).
Proof. intros (m & ->) (n & ->); exists (m + n); rewrite plus_IZR; ring. Qed.
Lemma grid_sub g r s : grid g r -> grid g s -> grid g (r - s).
Proof. intros (m & ->) (n & ->); exists (m - n); rewrite minus_IZR; ring. Qed.
Lemma grid_mul g h r s : grid g r -> grid h s -> grid (g + h) (r * s).
Proof. intros (m & ->) (n & ->); exists (m * n); rewrite mult_IZR, bpow_plus; ring. Qed.
Lemma grid_scale g r e : grid g r -> grid (g + e) (r * bpow radix2 e).
Proof. intros (m & ->); exists m; rewrite bpow_plus; ring. Qed.
Lemma grid_above g r : grid g r -> r <> 0%R -> (bpow radix2 g <= Rabs r)%R.
Proof.
  intros (m & ->) N; rewrite Rabs_mult, (Rabs_pos_eq (bpow radix2 g)) by apply bpow_ge_0.
  rewrite <- (Rmult_1_l (bpow radix2 g)) at 1; apply Rmult_le_compat_r; [apply bpow_ge_0|].
  rewrite <- abs_IZR; apply IZR_le; assert (m <> 0) by (intros ->; apply N; ring); lia.
Qed.
Lemma grid_normal g r : -1022 <= g -> grid g r -> normal r.
Proof. intros Hg H; destruct (Req_dec r 0) as [E|N]; [left; exact E|right]; apply Rle_trans with (2 := grid_above g r H N), bpow_le; exact Hg. Qed.
Lemma grid_rnd g r : -1074 <= g -> grid g r -> grid g (rnd r).
Proof.
  intros Hg (m & ->); destruct (Z.le_gt_cases g (cexp radix2 (SpecFloat.fexp 53 1024) (IZR m * bpow radix2 g))) as [H|H].
  - unfold round; unfold rnd, round; set (c := cexp _ _ _) in *; set (z := Znearest _ _).
    apply (grid_le c); [exact H|]; exists z; reflexivity.
  - rewrite rnd_fmt; [exists m; reflexivity|]; change (IZR m * bpow radix2 g)%R with (F2R (Float radix2 m g)); apply generic_format_F2R; intros _; apply Z.lt_le_incl; exact H.
Qed.
(** a double that is 0 or not small *)
Lemma grid_double (x : F64) m : (B2R x = 0%R \/ bpow radix2 m <= Rabs (B2R x))%R -> grid (m - 52) (B2R x).
Proof.
  intros [E|H]; [rewrite E; exists 0; ring|].
  pose proof (fmt_B2R x) as Fx; unfold generic_format in Fx.
  apply (grid_le (cexp radix2 (SpecFloat.fexp 53 1024) (B2R x))); [|eexists; exact Fx].
  unfold cexp, SpecFloat.fexp, SpecFloat.emin; apply Z.le_trans with (mag radix2 (B2R x) - 53); [|lia].
  assert (m + 1 <= mag radix2 (B2R x)); [|lia]; apply mag_ge_bpow; replace (m + 1 - 1) with m by lia; exact H.
Qed.

(** [y] is [x] times 2^e; [x] is a multiple of 2^g and at most k 2^h *)
Record sc (e g k h : Z) (x y : F64) : Prop := {
  sc_x : is_finite x = true; sc_y : is_finite y = true;
  sc_e : B2R y = (B2R x * bpow radix2 e)%R;
  sc_g : grid g (B2R x);
  sc_h : (Rabs (B2R x) <= IZR k * bpow radix2 h)%R }.
(** within the range of normal doubles, before and after *)
Definition ok (e g k h : Z) : Prop := -1022 <= g /\ -1022 <= g + e /\ 0 <= k <= 2 ^ 53 /\ -1000 <= h <= 960 /\ -1000 <= h + e <= 960.

Lemma fmt_bound k h : 0 <= k <= 2 ^ 53 -> -1000 <= h -> fmt (IZR k * bpow radix2 h).
Proof.
  intros Hk Hh; destruct (Z.eq_dec k (2 ^ 53)) as [-> |N].
  - change (IZR (2 ^ 53)) with (bpow radix2 53); rewrite <- bpow_plus; apply generic_format_bpow; unfold SpecFloat.fexp, SpecFloat.emin; lia.
  - apply (generic_format_FLT radix2 (SpecFloat.emin 53 1024) 53); exists (Float radix2 k h); [reflexivity| |unfold SpecFloat.emin; cbn [Fexp]; lia].
    change (radix2 ^ 53) with (2 ^ 53); cbn [Fnum]; rewrite Z.abs_eq by lia; lia.
Qed.
Lemma rnd_bound r k h : 0 <= k <= 2 ^ 53 -> -1000 <= h -> (Rabs r <= IZR k * bpow radix2 h)%R -> (Rabs (rnd r) <= IZR k * bpow radix2 h)%R.
Proof. intros Hk Hh H; apply abs_round_le_generic; [exact fexp_valid|apply valid_rnd_N|apply fmt_bound; assumption|exact H]. Qed.
Lemma bound_range r k h : 0 <= k <= 2 ^ 53 -> -1000 <= h <= 960 -> (Rabs r <= IZR k * bpow radix2 h)%R -> in_range r.
Proof.
  intros Hk Hh H; unfold in_range; apply Rle_lt_trans with (1 := rnd_bound r k h Hk ltac:(lia) H).
  apply Rle_lt_trans with (bpow radix2 53 * bpow radix2 h)%R; [apply Rmult_le_compat_r; [apply bpow_ge_0|change (bpow radix2 53) with (IZR (2 ^ 53)); apply IZR_le; lia]|].
  rewrite <- bpow_plus; apply bpow_lt; lia.
Qed.
Lemma abs_scale r e b : (Rabs r <= b)%R -> (Rabs (r * bpow radix2 e) <= b * bpow radix2 e)%R.
Proof. intros H; rewrite Rabs_mult, (Rabs_pos_eq (bpow radix2 e)) by apply bpow_ge_0; apply Rmult_le_compat_r; [apply bpow_ge_0|exact H]. Qed.

(** any operation whose exact result scales *)
Lemma op_sc e g k h r s (x y : F64) : ok e g k h -> s = (r * bpow radix2 e)%R -> normal r -> normal s -> (Rabs r <= IZR k * bpow radix2 h)%R ->
  (in_range r -> B2R x = rnd r /\ is_finite x = true) -> (in_range s -> B2R y = rnd s /\ is_finite y = true) -> grid g (rnd r) -> sc e g k h x y.
Proof.
  intros (Hg & Hge & Hk & Hh & Hhe) -> Nr Ns B Hx Hy G.
  destruct (Hx (bound_range r k h Hk Hh B)) as [Ex Fx].
  assert (B' : (Rabs (r * bpow radix2 e) <= IZR k * bpow radix2 (h + e))%R) by (rewrite bpow_plus, <- Rmult_assoc; apply abs_scale; exact B).
  destruct (Hy (bound_range _ k (h + e) Hk Hhe B')) as [Ey Fy].
  split; [exact Fx|exact Fy|rewrite Ey, Ex; apply rnd_scale; assumption|rewrite Ex; exact G|rewrite Ex; apply rnd_bound; [exact Hk|lia|exact B]].
Qed.
Lemma op_grid e g k h r s (x y : F64) : ok e g k h -> s = (r * bpow radix2 e)%R -> grid g r -> (Rabs r <= IZR k * bpow radix2 h)%R ->
  (in_range r -> B2R x = rnd r /\ is_finite x = true) -> (in_range s -> B2R y = rnd s /\ is_finite y = true) -> sc e g k h x y.
Proof.
  intros O Es G B Hx Hy; pose proof O as (Hg & Hge & _); apply (op_sc e g k h r s); try assumption; [apply (grid_normal g); assumption| |apply grid_rnd; [lia|exact G]].
  rewrite Es; apply (grid_normal (g + e)); [exact Hge|apply grid_scale; exact G].
Qed.
Lemma add_sc e g k1 k2 h x y x' y' : ok e g (k1 + k2) h -> sc e g k1 h x y -> sc e g k2 h x' y' -> sc e g (k1 + k2) h (f64_add x x') (f64_add y y').
Proof.
  intros O [Fx Fy E G B] [Fx' Fy' E' G' B']; apply (op_grid e g (k1 + k2) h (B2R x + B2R x') (B2R y + B2R y')); [exact O|rewrite E, E'; ring|apply grid_add; assumption| |apply add_ok; assumption|apply add_ok; assumption].
  apply Rle_trans with (1 := Rabs_triang _ _); rewrite plus_IZR; lra.
Qed.
Lemma sub_sc e g k1 k2 h x y x' y' : ok e g (k1 + k2) h -> sc e g k1 h x y -> sc e g k2 h x' y' -> sc e g (k1 + k2) h (f64_sub x x') (f64_sub y y').
Proof.
  intros O [Fx Fy E G B] [Fx' Fy' E' G' B']; apply (op_grid e g (k1 + k2) h (B2R x - B2R x') (B2R y - B2R y')); [exact O|rewrite E, E'; ring|apply grid_sub; assumption| |apply sub_ok; assumption|apply sub_ok; assumption].
  apply Rle_trans with (1 := Rabs_triang _ _); rewrite Rabs_Ropp, plus_IZR; lra.
Qed.
Lemma mul_sc e e' g g' k k' h h' x y x' y' : ok (e + e') (g + g') (k * k') (h + h') -> sc e g k h x y -> sc e' g' k' h' x' y' ->
  sc (e + e') (g + g') (k * k') (h + h') (f64_mul x x') (f64_mul y y').
Proof.
  intros O [Fx Fy E G B] [Fx' Fy' E' G' B']; apply (op_grid _ _ _ _ (B2R x * B2R x') (B2R y * B2R y')); [exact O|rewrite E, E', bpow_plus; ring|apply grid_mul; assumption| |apply mul_ok; assumption|apply mul_ok; assumption].
  rewrite Rabs_mult, mult_IZR, bpow_plus; replace (IZR k * IZR k' * (bpow radix2 h * bpow radix2 h'))%R with ((IZR k * bpow radix2 h) * (IZR k' * bpow radix2 h'))%R by ring.
  apply Rmult_le_compat; auto using Rabs_pos.
Qed.
(** by a whole number below 2^32 *)
Lemma div_sc e g k h n x y : ok e g k h -> -930 <= g -> -930 <= g + e -> 1 <= n < 4294967296 -> sc e g k h x y -> sc e (g - 84) k h (f64_div x #n) (f64_div y #n).
Proof.
  intros O Hg Hge Hn [Fx Fy E G B]; destruct (f64_of_Z_correct n ltac:(lia)) as (En & Fn & _).
  assert (N1 : (1 <= IZR n)%R) by (apply IZR_le; lia); assert (N2 : (IZR n <= bpow radix2 32)%R) by (change (bpow radix2 32) with (IZR 4294967296); apply IZR_le; lia).
  assert (Nz : B2R #n <> 0%R) by (rewrite En; lra).
  assert (L : (B2R x / IZR n = 0 \/ bpow radix2 (g - 32) <= Rabs (B2R x / IZR n))%R).
  { destruct (Req_dec (B2R x) 0) as [-> |N]; [left; unfold Rdiv; ring|right].
    unfold Rdiv; rewrite Rabs_mult, (Rabs_pos_eq (/ IZR n)) by (left; apply Rinv_0_lt_compat; lra).
    unfold Z.sub; rewrite bpow_plus, bpow_opp; apply Rmult_le_compat; [apply bpow_ge_0|left; apply Rinv_0_lt_compat, bpow_gt_0|apply (grid_above g); assumption|apply Rinv_le; lra]. }
  assert (Es : (B2R y / B2R #n = B2R x / B2R #n * bpow radix2 e)%R) by (rewrite E; unfold Rdiv; ring).
  destruct O as (_ & _ & O).
  assert (Nr : normal (B2R x / B2R #n)) by (rewrite En; destruct L as [L|L]; [left; exact L|right; apply Rle_trans with (2 := L), bpow_le; lia]).
  assert (Ns : normal (B2R y / B2R #n)).
  { rewrite Es, En; destruct L as [-> |L]; [left; ring|right]; rewrite Rabs_mult, (Rabs_pos_eq (bpow radix2 e)) by apply bpow_ge_0.
    apply Rle_trans with (bpow radix2 (g - 32) * bpow radix2 e)%R; [rewrite <- bpow_plus; apply bpow_le; lia|apply Rmult_le_compat_r; [apply bpow_ge_0|exact L]]. }
  assert (Bq : (Rabs (B2R x / B2R #n) <= IZR k * bpow radix2 h)%R).
  { apply Rle_trans with (2 := B); rewrite En; unfold Rdiv; rewrite Rabs_mult, (Rabs_pos_eq (/ IZR n)) by (left; apply Rinv_0_lt_compat; lra).
    rewrite <- (Rmult_1_r (Rabs (B2R x))) at 2; apply Rmult_le_compat_l; [apply Rabs_pos|]; rewrite <- Rinv_1; apply Rinv_le; lra. }
  assert (Hq : in_range (B2R x / B2R #n) -> B2R (f64_div x #n) = rnd (B2R x / B2R #n) /\ is_finite (f64_div x #n) = true) by (apply div_ok; assumption).
  apply (op_sc e (g - 84) k h (B2R x / B2R #n) (B2R y / B2R #n)); try assumption; [|apply div_ok; assumption|].
  - unfold ok; intuition lia.
  - destruct (Hq (bound_range _ k h ltac:(intuition lia) ltac:(intuition lia) Bq)) as [Eq _]; rewrite <- Eq; replace (g - 84) with (g - 32 - 52) by lia; apply grid_double; rewrite Eq, En.
    destruct L as [-> |L]; [left; apply rnd_0|right].
    apply abs_round_ge_generic; [exact fexp_valid|apply valid_rnd_N|apply generic_format_bpow; unfold SpecFloat.fexp, SpecFloat.emin; lia|exact L].
Qed.
Lemma zero_sc e g h : sc e g 0 h #0 #0.
Proof. destruct (f64_of_Z_correct 0 ltac:(lia)) as (E & F & _); split; try exact F; rewrite E; [ring|exists 0; ring|rewrite Rabs_R0; lra]. Qed.
Lemma sc_le e g g' k k' h h' x y : g' <= g -> (IZR k * bpow radix2 h <= IZR k' * bpow radix2 h')%R -> sc e g k h x y -> sc e g' k' h' x y.
Proof. intros Hg Hk [Fx Fy E G B]; split; try assumption; [apply (grid_le g); assumption|lra]. Qed.
Lemma sc_up e g k h d x y : 0 <= d -> k <= 2 ^ d -> sc e g k h x y -> sc e g 1 (h + d) x y.
Proof.
  intros Hd Hk; apply sc_le; [lia|]; rewrite bpow_plus, Rmult_1_l, Rmult_comm; apply Rmult_le_compat_l; [apply bpow_ge_0|].
  rewrite <- (IZR_Zpower radix2) by exact Hd; apply IZR_le; exact Hk.
Qed.
Lemma sum_sc e g h k : 0 <= k -> forall xs ys, Forall2 (sc e g k h) xs ys -> forall ka a b, 0 <= ka -> ok e g (ka + k * len xs) h -> sc e g ka h a b ->
  sc e g (ka + k * len xs) h (fold_left f64_add xs a) (fold_left f64_add ys b).
Proof.
  intros Hk; induction 1 as [|x y xs ys H _ IH]; intros ka a b Hka O A; cbn [fold_left].
  - change (len (@nil F64)) with 0; rewrite Z.mul_0_r, Z.add_0_r; exact A.
  - rewrite len_cons in *; pose proof (len_nonneg xs); replace (ka + k * (len xs + 1)) with (ka + k + k * len xs) in * by ring.
    apply IH; [lia|exact O|]; apply add_sc; [unfold ok in *; intuition nia|exact A|exact H].
Qed.
Lemma prod_sc e e' g g' h h' k k' : ok (e + e') (g + g') (k * k') (h + h') -> forall xs ys, Forall2 (sc e g k h) xs ys -> forall us vs, Forall2 (sc e' g' k' h') us vs ->
  Forall2 (sc (e + e') (g + g') (k * k') (h + h')) (map2 f64_mul xs us) (map2 f64_mul ys vs).
Proof.
  intros O; induction 1 as [|x y xs ys H _ IH]; intros us vs HU; destruct HU; cbn [map2]; try constructor; [apply mul_sc; assumption|apply IH; assumption].
Qed.
(** comparisons *)
Lemma lt_sc e g k h g' k' h' x y x' y' : sc e g k h x y -> sc e g' k' h' x' y' -> Bltb y y' = Bltb x x'.
Proof.
  intros [Fx Fy E _ _] [Fx' Fy' E' _ _]; pose proof (bpow_gt_0 radix2 e); destruct (Bltb x x') eqn:X; [apply lt_ok in X; try assumption; apply lt_ok; try assumption; rewrite E, E'; apply Rmult_lt_compat_r; assumption|].
  destruct (Bltb y y') eqn:Y; [|reflexivity]; apply lt_ok in Y; try assumption; rewrite E, E' in Y; apply Rmult_lt_reg_r in Y; [|assumption].
  rewrite (proj2 (lt_ok x x' Fx Fx') Y) in X; discriminate X.
Qed.
