(** * C130: the numbers of a seeded random Serie. *)
From Verif Require Import Base Num Serie Spec BaseFacts SerieFacts F64 F64Facts F64Arith F64Round Random Props_Random.
From Coq Require Import Reals Lra Psatz.
From Flocq Require Import Core.Core IEEE754.BinarySingleNaN.
From Flocq Require Import Mult_error.
Open Scope Z_scope.

(** ** Specification: the sequence of [rand.eng.mers] with the parameters of mt19937 ([rand.predef]) *)
(** the new word from X(k), X(k+1) and X(k+397): the upper bit of the first, the 31 lower bits of the second *)
Definition recurrence (x y z : Z) : Z :=
  let w := x / 2 ^ 31 * 2 ^ 31 + y mod 2 ^ 31 in
  Z.lxor z (Z.lxor (w / 2) (if Z.odd w then 2567483615 (* 0x9908b0df *) else 0)).
Definition mersenne (seed : Z) (X : nat -> Z) : Prop :=
  X 0%nat = seed mod 2 ^ 32 /\
  (forall i, (i < 623)%nat -> X (S i) = (1812433253 * Z.lxor (X i) (X i / 2 ^ 30) + Z.of_nat (S i)) mod 2 ^ 32) /\
  (forall k, X (k + 624)%nat = recurrence (X k) (X (k + 1)%nat) (X (k + 397)%nat)).
(** the word that is returned; b = 0x9d2c5680, c = 0xefc60000 *)
Definition tempered (x : Z) : Z :=
  let y := Z.lxor x (x / 2 ^ 11) in
  let y := Z.lxor y (Z.land (y * 2 ^ 7) 2636928640) in
  let y := Z.lxor y (Z.land (y * 2 ^ 15) 4022730752) in
  Z.lxor y (y / 2 ^ 18).

(** number [j] of the stream, for [a] and [b]: two words, the first one is the lower half; below 1 *)
Definition fraction (lo hi : Z) : F64 :=
  let r := f64_div (f64_add (f64_of_Z lo) (f64_mul (f64_of_Z hi) (f64_of_Z (2 ^ 32)))) (f64_of_Z (2 ^ 64)) in
  if Bleb (f64_of_Z 1) r then below_one else r.
Definition number (X : nat -> Z) (a b : F64) (j : nat) : F64 :=
  f64_add (f64_mul (fraction (tempered (X (624 + 2 * j)%nat)) (tempered (X (625 + 2 * j)%nat))) (f64_sub b a)) a.

(** ** The words *)
Lemma land_u32 a b : is_word b -> Z.land (u32 a) b = Z.land a b.
Proof.
  intros Hb; apply word_bits in Hb as [B1 B2]; apply Z.bits_inj'; intros n Hn; rewrite !Z.land_spec.
  destruct (Z_lt_le_dec n 32) as [H|H]; [|rewrite (B2 n H), !andb_false_r; reflexivity].
  unfold u32; change two32 with (2 ^ 32); rewrite Z.mod_pow2_bits_low by lia; reflexivity.
Qed.
Lemma temper_is x : mt_temper x = tempered x.
Proof.
  unfold mt_temper, tempered; cbv zeta; rewrite !Z.shiftr_div_pow2, !Z.shiftl_mul_pow2 by lia.
  rewrite !land_u32 by word_const; reflexivity.
Qed.
Lemma upper_lower x y : is_word x ->
  Z.lor (Z.land x 2147483648) (Z.land y 2147483647) = x / 2 ^ 31 * 2 ^ 31 + y mod 2 ^ 31.
Proof.
  intros Hx.
  assert (E1 : Z.land x 2147483648 = Z.shiftl (x / 2 ^ 31) 31).
  { rewrite <- Z.shiftr_div_pow2 by lia; apply Z.bits_inj'; intros n Hn; rewrite Z.land_spec, Z.shiftl_spec by lia.
    change 2147483648 with (2 ^ 31); rewrite Z.pow2_bits_eqb by lia.
    destruct (Z.eqb_spec 31 n) as [<-|E]; [rewrite andb_true_r, Z.shiftr_spec by lia; f_equal|].
    rewrite andb_false_r; symmetry; destruct (Z_lt_le_dec n 31); [apply Z.testbit_neg_r; lia|].
    rewrite Z.shiftr_spec by lia; apply word_bits in Hx as [_ Hx]; apply Hx; lia. }
  assert (E2 : Z.land y 2147483647 = y mod 2 ^ 31) by (change 2147483647 with (Z.ones 31); apply Z.land_ones; lia).
  rewrite E1, E2, <- Z.shiftl_mul_pow2 by lia.
  symmetry; rewrite Z.add_nocarry_lxor, Z.lxor_lor; try reflexivity.
  all: apply Z.bits_inj'; intros n Hn; rewrite Z.land_spec, Z.bits_0; destruct (Z_lt_le_dec n 31);
    [rewrite Z.shiftl_spec_low by lia; reflexivity|rewrite Z.mod_pow2_bits_high by lia; apply andb_false_r].
Qed.
Lemma twist_is x y z : is_word x -> mt_twist x y z = recurrence x y z.
Proof.
  intros Hx; unfold mt_twist, recurrence; cbv zeta; rewrite (upper_lower x y Hx), Z.lxor_assoc, Z.shiftr_div_pow2 by lia; reflexivity.
Qed.

Lemma mersenne_words seed X : mersenne seed X -> forall n, is_word (X n).
Proof.
  intros (H0 & H1 & H2).
  assert (All : forall n m, (m < n)%nat -> is_word (X m)).
  { induction n as [|n IH]; intros m Hm; [lia|]; destruct (Nat.eq_dec m n) as [->|]; [|apply IH; lia].
    destruct (le_lt_dec 624 n) as [L|L].
    - replace n with (n - 624 + 624)%nat by lia; rewrite H2, <- twist_is by (apply IH; lia); apply mt_twist_word; apply IH; lia.
    - destruct n as [|i]; [rewrite H0; apply word_u32|rewrite H1 by lia; apply word_u32]. }
  intros n; apply (All (S n)); lia.
Qed.

(** ** Blocks *)
Definition stretch (X : nat -> Z) (a n : nat) : list Z := map X (seq a n).
Lemma skipn_seq j : forall a n, skipn j (seq a n) = seq (a + j) (n - j).
Proof.
  induction j as [|j IH]; intros a n; [rewrite Nat.add_0_r, Nat.sub_0_r; reflexivity|].
  destruct n as [|n]; [reflexivity|]; cbn [seq skipn]; rewrite IH; f_equal; lia.
Qed.
Lemma firstn_seq j : forall a n, (j <= n)%nat -> firstn j (seq a n) = seq a j.
Proof. induction j as [|j IH]; intros a n H; [reflexivity|]; destruct n as [|n]; [lia|]; cbn [seq firstn]; rewrite IH by lia; reflexivity. Qed.
Lemma skip_stretch X j a n : skipn j (stretch X a n) = stretch X (a + j) (n - j).
Proof. unfold stretch; rewrite skipn_map, skipn_seq; reflexivity. Qed.
Lemma first_stretch X j a n : (j <= n)%nat -> firstn j (stretch X a n) = stretch X a j.
Proof. intros; unfold stretch; rewrite firstn_map, firstn_seq by assumption; reflexivity. Qed.
Lemma app_stretch X a n m : stretch X a n ++ stretch X (a + n) m = stretch X a (n + m).
Proof. unfold stretch; rewrite seq_app, map_app; reflexivity. Qed.
Lemma stretch_S X a n : stretch X a (S n) = X a :: stretch X (S a) n.
Proof. reflexivity. Qed.

Section Blocks.
  Variable seed : Z.
  Variable X : nat -> Z.
  Hypothesis HX : mersenne seed X.

  Lemma twist_stretch n : forall a b c n2 n3, (n <= n2)%nat -> (n <= n3)%nat -> b = (a + 1)%nat -> c = (a + 397)%nat ->
    twist3 (stretch X a n) (stretch X b n2) (stretch X c n3) = stretch X (a + 624) n.
  Proof.
    induction n as [|n IH]; intros a b c n2 n3 H2 H3 -> ->; [reflexivity|].
    destruct n2 as [|n2]; [lia|]; destruct n3 as [|n3]; [lia|]; rewrite !stretch_S; cbn [twist3].
    rewrite (IH (S a)) by lia; f_equal.
    destruct HX as (_ & _ & R); rewrite R; apply twist_is, (mersenne_words seed X HX).
  Qed.

  Lemma next_stretch b : mt_next (stretch X b 624) = stretch X (b + 624) 624.
  Proof.
    unfold mt_next; rewrite !skip_stretch, !first_stretch by (apply Nat.leb_le; reflexivity).
    rewrite (twist_stretch 227 b) by (first [reflexivity|apply Nat.leb_le; reflexivity]).
    rewrite (twist_stretch 227 (b + 227)) by (first [lia|apply Nat.leb_le; reflexivity]).
    rewrite (twist_stretch 169 (b + 454)) by (first [lia|apply Nat.leb_le; reflexivity]).
    replace (b + 227 + 624)%nat with (b + 624 + 227)%nat by lia; replace (b + 454 + 624)%nat with (b + 624 + 227 + 227)%nat by lia.
    rewrite app_stretch; replace (b + 624 + 227 + 227)%nat with (b + 624 + 454)%nat by lia.
    replace (stretch X (b + 624) 227 ++ stretch X (b + 624 + 227) (227 + 169)) with (stretch X (b + 624) 623) by (symmetry; apply app_stretch).
    rewrite skip_stretch, (twist_stretch 1 (b + 623)) by (first [lia|apply Nat.leb_le; reflexivity]).
    replace (b + 623 + 624)%nat with (b + 624 + 623)%nat by lia; apply app_stretch.
  Qed.

  Lemma fill_stretch n : forall i, (i + n <= 624)%nat -> mt_fill (X i) (Z.of_nat i) n = stretch X i n.
  Proof.
    induction n as [|n IH]; intros i Hi; [reflexivity|]; cbn [mt_fill]; rewrite stretch_S; f_equal.
    destruct n as [|n]; [reflexivity|].
    rewrite <- (IH (S i)) by lia; replace (Z.of_nat i + 1) with (Z.of_nat (S i)) by lia; f_equal.
    destruct HX as (_ & R & _); rewrite R by lia; unfold mt_seed_step; rewrite Z.shiftr_div_pow2 by lia; reflexivity.
  Qed.

  (** after [n] words *)
  Definition after (n : nat) (g : mt) : Prop :=
    exists j, mt_block g = stretch X (n + j) 624 /\ mt_rest g = stretch X (624 + n) j.
  Lemma after_seed : after 0 (mt_seed seed).
  Proof.
    exists 0%nat; split; [|reflexivity]; unfold mt_seed; cbn [mt_block].
    transitivity (mt_fill (X 0%nat) (Z.of_nat 0) 624); [destruct HX as (-> & _); reflexivity|apply fill_stretch; lia].
  Qed.
  Lemma after_word n g : after n g -> fst (mt_word g) = tempered (X (624 + n)%nat) /\ after (S n) (snd (mt_word g)).
  Proof.
    intros (j & Eb & Er); unfold mt_word; rewrite Eb, Er; destruct j as [|j].
    - change (stretch X (624 + n) 0) with (@nil Z); cbv iota; rewrite next_stretch.
      assert (Ec : stretch X (n + 0 + 624) 624 = X (624 + n)%nat :: stretch X (624 + S n) 623).
      { replace (n + 0 + 624)%nat with (624 + n)%nat by lia; rewrite stretch_S; do 2 f_equal; lia. }
      rewrite Ec; cbn [fst snd]; rewrite temper_is; split; [reflexivity|].
      exists 623%nat; cbn [mt_block mt_rest]; split; [|reflexivity].
      rewrite <- Ec; f_equal; lia.
    - rewrite stretch_S; cbn [fst snd]; rewrite temper_is; split; [reflexivity|].
      exists j; cbn [mt_block mt_rest]; split; f_equal; lia.
  Qed.
  Lemma after_skip n : forall m g, after m g -> after (m + n) (skip_words n g).
  Proof.
    induction n as [|n IH]; intros m g H; cbn [skip_words]; [rewrite Nat.add_0_r; exact H|].
    rewrite Nat.add_succ_r, <- Nat.add_succ_l; apply IH, after_word, H.
  Qed.
End Blocks.

(** every word the generator returns, for every seed *)
Theorem C130_words :
  forall seed X, mersenne seed X -> forall n, fst (mt_word (skip_words n (mt_seed seed))) = tempered (X (624 + n)%nat).
Proof.
  intros seed X H n; apply (after_word seed X H), (after_skip seed X H n 0), (after_seed seed X H).
Qed.
Print Assumptions C130_words.

(** there is such a sequence for every seed, and only one *)
Fixpoint history (seed : Z) (n : nat) : list Z :=
  match n with
  | O => []
  | S n => let h := history seed n in
           (match n with
            | O => seed mod 2 ^ 32
            | S _ => if (n <? 624)%nat then (1812433253 * Z.lxor (nth 0 h 0) (nth 0 h 0 / 2 ^ 30) + Z.of_nat n) mod 2 ^ 32
                     else recurrence (nth 623 h 0) (nth 622 h 0) (nth 226 h 0)
            end) :: h
  end.
Definition nth_word (seed : Z) (n : nat) : Z := nth 0 (history seed (S n)) 0.
Lemma history_nth seed n : forall j, (j < n)%nat -> nth j (history seed n) 0 = nth_word seed (n - 1 - j).
Proof.
  induction n as [|n IH]; intros j Hj; [lia|]; destruct j as [|j].
  - unfold nth_word; f_equal; f_equal; lia.
  - change (nth (S j) (history seed (S n)) 0) with (nth j (history seed n) 0); rewrite IH by lia; f_equal; lia.
Qed.
Lemma nth_word_ok seed : mersenne seed (nth_word seed).
Proof.
  split; [reflexivity|]; split.
    - intros i Hi.
      assert (E : nth_word seed (S i) = if (S i <? 624)%nat then (1812433253 * Z.lxor (nth 0 (history seed (S i)) 0) (nth 0 (history seed (S i)) 0 / 2 ^ 30) + Z.of_nat (S i)) mod 2 ^ 32
        else recurrence (nth 623 (history seed (S i)) 0) (nth 622 (history seed (S i)) 0) (nth 226 (history seed (S i)) 0)) by reflexivity.
      rewrite E; destruct (Nat.ltb_spec (S i) 624); [reflexivity|lia].
    - intros k; remember (k + 623)%nat as m eqn:Em; replace (k + 624)%nat with (S m) by lia.
      assert (E : nth_word seed (S m) = if (S m <? 624)%nat then (1812433253 * Z.lxor (nth 0 (history seed (S m)) 0) (nth 0 (history seed (S m)) 0 / 2 ^ 30) + Z.of_nat (S m)) mod 2 ^ 32
        else recurrence (nth 623 (history seed (S m)) 0) (nth 622 (history seed (S m)) 0) (nth 226 (history seed (S m)) 0)) by reflexivity.
      rewrite E; destruct (Nat.ltb_spec (S m) 624); [lia|].
      rewrite !history_nth by lia; f_equal; f_equal; lia.
Qed.
Theorem C130_exists : forall seed, exists X, mersenne seed X /\ forall Y, mersenne seed Y -> forall n, Y n = X n.
Proof.
  intros seed; exists (nth_word seed); pose proof (nth_word_ok seed) as M.
  split; [exact M|]; intros Y HY.
  assert (All : forall n m, (m < n)%nat -> Y m = nth_word seed m).
  { destruct M as (A0 & A1 & A2), HY as (B0 & B1 & B2); induction n as [|n IH]; intros m Hm; [lia|].
    destruct (Nat.eq_dec m n) as [->|]; [|apply IH; lia]; destruct (le_lt_dec 624 n) as [L|L].
    - replace n with (n - 624 + 624)%nat by lia; rewrite A2, B2; f_equal; apply IH; lia.
    - destruct n as [|i]; [rewrite A0, B0; reflexivity|rewrite A1, B1, IH by lia; reflexivity]. }
  intros n; apply (All (S n)); lia.
Qed.
Print Assumptions C130_exists.

(** ** The fractions *)
Lemma fmt_flt x : fmt x <-> generic_format radix2 (FLT_exp (-1074) 53) x.
Proof. split; intros H; exact H. Qed.
Lemma below_one_val : B2R below_one = (1 - bpow radix2 (-53))%R.
Proof.
  unfold below_one; destruct (f64_of_Z_correct (2 ^ 53 - 1) ltac:(lia)) as (A & FA & _); destruct (f64_of_Z_correct (2 ^ 53) ltac:(lia)) as (B & FB & _).
  assert (Eb : IZR (2 ^ 53) = bpow radix2 53) by reflexivity.
  assert (E : (IZR (2 ^ 53 - 1) / IZR (2 ^ 53) = 1 - bpow radix2 (-53))%R).
  { rewrite minus_IZR, Eb; change (-53) with (- (53)); rewrite bpow_opp; pose proof (bpow_gt_0 radix2 53); field; lra. }
  assert (P : (pred radix2 (SpecFloat.fexp 53 1024) (bpow radix2 0) = 1 - bpow radix2 (-53))%R) by (rewrite pred_bpow; reflexivity).
  assert (F : fmt (1 - bpow radix2 (-53))).
  { rewrite <- P; apply generic_format_pred; [exact fexp_valid|]; apply generic_format_bpow; unfold SpecFloat.fexp, SpecFloat.emin; lia. }
  assert (S : (0 < bpow radix2 (-53) < 1)%R) by (split; [apply bpow_gt_0|change 1%R with (bpow radix2 0); apply bpow_lt; lia]).
  destruct (div_ok (f64_of_Z (2 ^ 53 - 1)) (f64_of_Z (2 ^ 53)) FA) as [D _].
  - rewrite B, Eb; apply Rgt_not_eq, bpow_gt_0.
  - rewrite A, B, E; destruct (f64_of_Z_correct 1 ltac:(lia)) as (A2 & _ & _).
    apply (range_between #0 #1); rewrite (proj1 zero_ok), A2; lra.
  - rewrite A, B, E, (rnd_fmt _ F) in D; exact D.
Qed.
(** [v] is the 64-bit number rounded to a double, divided by 2^64; 1 is replaced by the double before it *)
Theorem C130_fraction :
  forall lo hi, is_word lo -> is_word hi ->
  let v := (rnd (IZR (lo + 2 ^ 32 * hi)) / bpow radix2 64)%R in
  is_finite (fraction lo hi) = true /\
  ((v < 1)%R -> B2R (fraction lo hi) = v) /\ ((1 <= v)%R -> B2R (fraction lo hi) = (1 - bpow radix2 (-53))%R).
Proof.
  intros w0 w1 W0 W1 v; unfold is_word in W0, W1.
  destruct (f64_of_Z_correct w0 ltac:(lia)) as (A0 & F0 & _); destruct (f64_of_Z_correct w1 ltac:(lia)) as (A1 & F1 & _).
  destruct (pow_ok 32 ltac:(lia)) as [B32 G32]; destruct (pow_ok 64 ltac:(lia)) as [B64 G64].
  pose proof (fmt_scaled w1 32 ltac:(lia) ltac:(lia)) as Fs.
  assert (P32 : bpow radix2 32 = 4294967296%R) by reflexivity.
  assert (P64 : (bpow radix2 64 = 4294967296 * 4294967296)%R) by (change 64 with (32 + 32); rewrite bpow_plus; reflexivity).
  assert (R0 : (0 <= IZR w0 <= 4294967295)%R) by (split; apply IZR_le; lia).
  assert (R1 : (0 <= IZR w1 <= 4294967295)%R) by (split; apply IZR_le; lia).
  assert (H1 : (B2R #0 <= IZR w1 * bpow radix2 32 <= B2R (f64_of_Z (2 ^ 64)))%R) by (rewrite (proj1 zero_ok), B64, P64, P32; nra).
  destruct (mul_ok (f64_of_Z w1) (f64_of_Z (2 ^ 32)) F1 G32) as [M1 FM1].
  { rewrite A1, B32; apply (range_between _ _ _ H1). }
  rewrite A1, B32, (rnd_fmt _ Fs) in M1; unfold fraction; cbv zeta; set (m := f64_mul (f64_of_Z w1) (f64_of_Z (2 ^ 32))) in *.
  assert (H2 : (B2R #0 <= IZR w0 + B2R m <= B2R (f64_of_Z (2 ^ 64)))%R) by (rewrite (proj1 zero_ok), B64, M1, P64, P32; nra).
  destruct (add_ok (f64_of_Z w0) m F0 FM1) as [S1 FS1].
  { rewrite A0; apply (range_between _ _ _ H2). }
  rewrite A0 in S1; set (s := f64_add (f64_of_Z w0) m) in *.
  assert (Ex : (IZR w0 + B2R m = IZR (w0 + 2 ^ 32 * w1))%R) by (rewrite M1, plus_IZR, mult_IZR, P32; change (IZR (2 ^ 32)) with 4294967296%R; ring).
  pose proof (rnd_between _ _ _ H2) as H3; rewrite <- S1, (proj1 zero_ok), B64 in H3.
  rewrite Ex in S1; fold v; assert (Ev : v = (B2R s / bpow radix2 64)%R) by (unfold v; rewrite S1; reflexivity).
  destruct (f64_of_Z_correct 1 ltac:(lia)) as (A2 & F2 & _).
  assert (H4 : (B2R #0 <= B2R s / bpow radix2 64 <= B2R #1)%R).
  { rewrite (proj1 zero_ok), A2; pose proof (bpow_gt_0 radix2 64); split; [apply Rmult_le_pos; [lra|left; apply Rinv_0_lt_compat; lra]|].
    apply (Rmult_le_reg_r (bpow radix2 64)); [lra|]; unfold Rdiv; rewrite Rmult_assoc, Rinv_l by lra; lra. }
  destruct (div_ok s (f64_of_Z (2 ^ 64)) FS1) as [D1 FD1].
  { rewrite B64; apply Rgt_not_eq, bpow_gt_0. }
  { rewrite B64; apply (range_between _ _ _ H4). }
  assert (Fv : fmt (B2R s / bpow radix2 64)).
  { unfold Rdiv; rewrite <- bpow_opp; destruct (Req_dec (B2R s) 0) as [Z0|Z0]; [rewrite Z0, Rmult_0_l; apply generic_format_0|].
    apply fmt_flt, mult_bpow_exact_FLT; [apply fmt_flt, fmt_B2R|].
    assert (1 <= IZR (w0 + 2 ^ 32 * w1))%R.
    { apply IZR_le; destruct (Z.eq_dec (w0 + 2 ^ 32 * w1) 0) as [E|E]; [|lia]; exfalso; apply Z0; rewrite S1, E; apply round_0, valid_rnd_N. }
    assert (B1 : (1 <= B2R s)%R).
    { rewrite S1; replace 1%R with (rnd 1) by (apply rnd_fmt; rewrite <- A2; apply fmt_B2R); apply rnd_le; assumption. }
    assert (1 <= mag radix2 (B2R s))%Z by (apply mag_ge_bpow; rewrite Rabs_pos_eq by lra; exact B1); lia. }
  rewrite B64, (rnd_fmt _ Fv), <- Ev in D1; clear Fv.
  set (r := f64_div s (f64_of_Z (2 ^ 64))) in *.
  destruct (Bleb (f64_of_Z 1) r) eqn:El.
  - assert (1 <= v)%R by (rewrite <- D1, <- A2; apply le_ok; assumption).
    split; [apply below_one_ok|]; split; [lra|intros _; apply below_one_val].
  - assert (v < 1)%R.
    { rewrite <- D1; apply Rnot_le_lt; intros Xl; assert (Bleb (f64_of_Z 1) r = true); [|congruence]; apply le_ok; [exact F2|exact FD1|]; rewrite A2; exact Xl. }
    split; [exact FD1|]; split; [intros _; exact D1|lra].
Qed.
Print Assumptions C130_fraction.

(** ** The Series *)
Lemma word_fraction L seed X (HX : mersenne seed X) a b n g : after X n g ->
  exists g', uniform (H := f64_num L) (Random.canonical mt_word) a b g
    = (Ok (f64_add (f64_mul (fraction (tempered (X (624 + n)%nat)) (tempered (X (625 + n)%nat))) (f64_sub b a)) a), g') /\ after X (S (S n)) g'.
Proof.
  intros H; destruct (after_word seed X HX n g H) as [E1 H1]; unfold uniform, mbind, Random.canonical.
  destruct (mt_word g) as [w0 g1]; cbn [fst snd] in E1, H1; destruct (after_word seed X HX (S n) g1 H1) as [E2 H2].
  destruct (mt_word g1) as [w1 g2]; cbn [fst snd] in E2, H2; exists g2; split; [|exact H2].
  rewrite E1, E2; replace (625 + n)%nat with (624 + S n)%nat by lia; rewrite f64_mul_1.
  assert (W : is_word (tempered (X (624 + n)%nat))) by (rewrite <- temper_is; apply mt_temper_word, (mersenne_words seed X HX)).
  set (w := tempered (X (624 + n)%nat)) in *; unfold is_word in W.
  assert (E0 : f64_add (f64_of_Z 0) (f64_of_Z w) = f64_of_Z w) by (change w with (0 + w) at 2; apply f64_add_int; lia).
  rewrite E0; reflexivity.
Qed.
Lemma numbers_drawn L seed X (HX : mersenne seed X) a b m : forall j g, after X (2 * j) g ->
  exists g', draws (uniform (H := f64_num L) (Random.canonical mt_word) a b) g (map (number X a b) (seq j m)) g'.
Proof.
  induction m as [|m IH]; intros j g H; [exists g; constructor|].
  destruct (word_fraction L seed X HX a b (2 * j) g H) as (g1 & E & H1).
  destruct (IH (S j) g1) as (g2 & D); [replace (2 * S j)%nat with (S (S (2 * j))) by lia; exact H1|].
  exists g2; cbn [seq map]; econstructor; [exact E|exact D].
Qed.

Lemma nth_first {A} (d : A) l : forall n i, (i < n)%nat -> nth i (firstn n l) d = nth i l d.
Proof.
  induction l as [|x l IH]; intros n i H; [rewrite firstn_nil; reflexivity|]; destruct n as [|n]; [lia|]; destruct i as [|i]; [reflexivity|].
  cbn [firstn nth]; apply IH; lia.
Qed.
Lemma concat_nth {A} (d : A) k rows : Forall (fun r => length r = k) rows -> forall i c, (c < k)%nat -> (i < length rows)%nat ->
  nth (i * k + c) (concat rows) d = nth c (nth i rows []) d.
Proof.
  intros F; induction F as [|r rows Hr F IH]; intros i c Hc Hi; [cbn in Hi; lia|]; cbn [concat].
  destruct i as [|i]; [cbn [nth Nat.mul Nat.add]; rewrite app_nth1 by lia; reflexivity|].
  rewrite app_nth2 by (cbn; lia); cbn [nth]; rewrite <- IH by (cbn in Hi; lia); f_equal; cbn; lia.
Qed.

(** item i, component c is number i * itemSize + c of the stream of the seed, whatever the count *)
Theorem C130_values :
  forall L count itemSize min max seed X, mersenne seed X ->
  0 <= itemSize < 2147483648 -> 0 <= count < 4294967296 -> itemSize * count < 4294967296 ->
  exists rows, random_serie L count itemSize min max seed = Ok (mk itemSize rows 3) /\ len rows = count /\ rows_of_size itemSize rows /\
    concat rows = map (number X min max) (seq 0 (Z.to_nat (itemSize * count))) /\
    forall i c, Z.of_nat i < count -> Z.of_nat c < itemSize ->
      nth c (nth i rows []) (number X min max 0) = number X min max (i * Z.to_nat itemSize + c).
Proof.
  intros L count k a b seed X HX Hk Hn Hm; unfold random_serie.
  destruct (numbers_drawn L seed X HX a b (Z.to_nat count * Z.to_nat k) 0 (mt_seed seed) (after_seed seed X HX)) as (g & D).
  destruct (chunks (Z.to_nat k) (Z.to_nat count) (map (number X a b) (seq 0 (Z.to_nat count * Z.to_nat k)))) as (rows & E & Lr & R).
  { rewrite map_length, seq_length; reflexivity. }
  assert (Lr' : len rows = count) by (unfold len; lia).
  assert (R' : rows_of_size k rows) by (eapply Forall_impl; [|exact R]; intros r Hr; cbn beta in Hr; unfold len; lia).
  exists rows; split; [|split; [exact Lr'|split; [exact R'|split]]].
  - rewrite <- E in D; rewrite <- Lr' at 1; rewrite (C102_fills (NT := f64_num L) _ k rows (mt_seed seed) g); try assumption; try (rewrite Lr'; lia); reflexivity.
  - rewrite E; do 2 f_equal; nia.
  - intros i c Hi Hc; rewrite <- (concat_nth _ (Z.to_nat k) rows R) by (lia || (rewrite Lr; lia)); rewrite E, map_nth, seq_nth by nia; reflexivity.
Qed.
Print Assumptions C130_values.

(** more items from the same seed: the same items first *)
Theorem C130_prefix :
  forall L count more itemSize min max seed,
  0 <= itemSize < 2147483648 -> 0 <= count <= more -> more < 4294967296 -> itemSize * more < 4294967296 ->
  exists rows rest, random_serie L count itemSize min max seed = Ok (mk itemSize rows 3) /\ len rows = count /\
    random_serie L more itemSize min max seed = Ok (mk itemSize (rows ++ rest) 3).
Proof.
  intros L count more k a b seed Hk Hc Hm Hs; destruct (C130_exists seed) as (X & HX & _).
  destruct (C130_values L count k a b seed X HX) as (r1 & E1 & L1 & R1 & _ & V1); try nia.
  destruct (C130_values L more k a b seed X HX) as (r2 & E2 & L2 & R2 & _ & V2); try nia.
  exists r1, (skipn (length r1) r2); split; [exact E1|]; split; [exact L1|].
  replace (r1 ++ skipn (length r1) r2) with r2; [exact E2|].
  rewrite <- (firstn_skipn (length r1) r2) at 1; f_equal.
  unfold len in L1, L2; apply (nth_ext _ _ [] []); [rewrite firstn_length; lia|].
  rewrite firstn_length; intros i Hi; rewrite nth_first by lia.
  assert (A1 : length (nth i r1 []) = Z.to_nat k) by (unfold rows_of_size in R1; rewrite Forall_forall in R1; specialize (R1 _ (nth_In r1 [] (n := i) ltac:(lia))); unfold len in R1; lia).
  assert (A2 : length (nth i r2 []) = Z.to_nat k) by (unfold rows_of_size in R2; rewrite Forall_forall in R2; specialize (R2 _ (nth_In r2 [] (n := i) ltac:(lia))); unfold len in R2; lia).
  apply (nth_ext _ _ (number X a b 0) (number X a b 0)); [lia|]; intros c Hc'; rewrite V1, V2 by lia; reflexivity.
Qed.
Print Assumptions C130_prefix.

(** another item size, the same numbers *)
Theorem C130_reshape :
  forall L c1 k1 c2 k2 min max seed,
  0 <= k1 < 2147483648 -> 0 <= k2 < 2147483648 -> 0 <= c1 < 4294967296 -> 0 <= c2 < 4294967296 -> k1 * c1 = k2 * c2 -> k1 * c1 < 4294967296 ->
  exists r1 r2, random_serie L c1 k1 min max seed = Ok (mk k1 r1 3) /\ random_serie L c2 k2 min max seed = Ok (mk k2 r2 3) /\
    asArray (mk k1 r1 3) = asArray (mk k2 r2 3).
Proof.
  intros L c1 k1 c2 k2 a b seed Hk1 Hk2 Hc1 Hc2 E Hs; destruct (C130_exists seed) as (X & HX & _).
  destruct (C130_values L c1 k1 a b seed X HX) as (r1 & E1 & _ & _ & V1 & _); try lia.
  destruct (C130_values L c2 k2 a b seed X HX) as (r2 & E2 & _ & _ & V2 & _); try lia.
  exists r1, r2; split; [exact E1|]; split; [exact E2|]; unfold asArray, mk; cbn [s_]; rewrite V1, V2, E; reflexivity.
Qed.
Print Assumptions C130_reshape.

(** the standard's own check: word 10000 for the default seed *)
Theorem C130_standard : forall X, mersenne 5489 X -> tempered (X (Z.to_nat 10623)) = 4123659995.
Proof.
  intros X HX; replace (Z.to_nat 10623) with (624 + Z.to_nat 9999)%nat by lia.
  rewrite <- (C130_words 5489 X HX); exact C102_standard.
Qed.
Print Assumptions C130_standard.

Example C130_ex : mersenne 42 (nth_word 42) /\ nth_word 42 0 = 42 /\ nth_word 42 1 = 1812433253 * 42 + 1 - 17 * 2 ^ 32 /\
  (exists rows, random_serie libm0 2 3 #0 #1 42 = Ok (mk 3 rows 3) /\ len rows = 2 /\
     nth 1 (nth 1 rows []) (number (nth_word 42) #0 #1 0) = number (nth_word 42) #0 #1 4).
Proof.
  split; [apply nth_word_ok|]; split; [vm_compute; reflexivity|]; split; [vm_compute; reflexivity|].
  destruct (C130_values libm0 2 3 #0 #1 42 (nth_word 42) (nth_word_ok 42)) as (rows & E & Lr & _ & _ & V); try lia.
  exists rows; split; [exact E|]; split; [exact Lr|]; exact (V 1%nat 1%nat ltac:(lia) ltac:(lia)).
Qed.
