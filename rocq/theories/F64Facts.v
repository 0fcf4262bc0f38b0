(** * Facts on binary64: integers up to 2^53 are exact. *)
From Verif Require Import Base Num F64.
From Flocq Require Import Core IEEE754.BinarySingleNaN.
From Coq Require Import Reals Lra Psatz.
Open Scope Z_scope.

Notation fmt := (generic_format radix2 (SpecFloat.fexp 53 1024)).
Notation rnd := (round radix2 (SpecFloat.fexp 53 1024) ZnearestE).

Lemma fmt_int n : Z.abs n <= 2 ^ 53 -> fmt (IZR n).
Proof.
  intros Hn.
  destruct (Z.eq_dec (Z.abs n) (2 ^ 53)) as [E|Hne].
  - apply generic_format_abs_inv; rewrite <- abs_IZR, E.
    change (2 ^ 53) with (Zpower radix2 53); rewrite IZR_Zpower by lia.
    apply generic_format_bpow; unfold SpecFloat.fexp, SpecFloat.emin; lia.
  - apply (generic_format_FLT radix2 (SpecFloat.emin 53 1024) 53).
    exists (Float radix2 n 0); simpl.
    + unfold F2R; simpl; ring.
    + change (Z.pow_pos 2 53) with (2 ^ 53); lia.
    + unfold SpecFloat.emin; lia.
Qed.

Lemma rnd_int n : Z.abs n <= 2 ^ 53 -> rnd (IZR n) = IZR n.
Proof. intros; apply round_generic; [apply valid_rnd_N|apply fmt_int; assumption]. Qed.

Lemma int_lt_emax n : Z.abs n <= 2 ^ 53 -> (Rabs (IZR n) < bpow radix2 1024)%R.
Proof.
  intros; rewrite <- abs_IZR; apply Rle_lt_trans with (IZR (2 ^ 53)); [apply IZR_le; assumption|].
  change (2 ^ 53) with (Zpower radix2 53); rewrite IZR_Zpower by lia; apply bpow_lt; lia.
Qed.

Lemma f64_of_Z_correct n : Z.abs n <= 2 ^ 53 ->
  B2R (f64_of_Z n) = IZR n /\ is_finite (f64_of_Z n) = true /\
  Bsign (f64_of_Z n) = (n <? 0).
Proof.
  intros Hn; unfold f64_of_Z.
  pose proof (binary_normalize_correct 53 1024 F64_prec F64_emax mode_NE n 0 false) as H.
  assert (E : F2R (Float radix2 n 0) = IZR n) by (unfold F2R; simpl; ring).
  rewrite E in H; unfold round_mode in H.
  change (round radix2 (SpecFloat.fexp 53 1024) ZnearestE (IZR n)) with (rnd (IZR n)) in H.
  rewrite (rnd_int n Hn), Rlt_bool_true in H by (apply int_lt_emax; assumption).
  destruct H as (H1 & H2 & H3); split; [exact H1|]; split; [exact H2|].
  rewrite H3; destruct (Rcompare_spec (IZR n) 0) as [Hc|Hc|Hc].
  - apply lt_IZR in Hc; symmetry; apply Z.ltb_lt; exact Hc.
  - apply eq_IZR in Hc; subst; reflexivity.
  - apply lt_IZR in Hc; symmetry; apply Z.ltb_ge; lia.
Qed.

Lemma f64_add_int a b : 0 <= a -> 0 <= b -> a + b <= 2 ^ 53 ->
  f64_add (f64_of_Z a) (f64_of_Z b) = f64_of_Z (a + b).
Proof.
  intros Ha Hb Hab.
  destruct (f64_of_Z_correct a ltac:(lia)) as (Ra & Fa & Sa).
  destruct (f64_of_Z_correct b ltac:(lia)) as (Rb & Fb & Sb).
  destruct (f64_of_Z_correct (a + b) ltac:(lia)) as (Rc & Fc & Sc).
  unfold f64_add.
  pose proof (Bplus_correct 53 1024 F64_prec F64_emax mode_NE _ _ Fa Fb) as H.
  rewrite Ra, Rb, <- plus_IZR in H; unfold round_mode in H.
  change (round radix2 (SpecFloat.fexp 53 1024) ZnearestE (IZR (a + b))) with (rnd (IZR (a + b))) in H.
  rewrite (rnd_int (a + b)), Rlt_bool_true in H by (try apply int_lt_emax; lia).
  destruct H as (H1 & H2 & H3).
  apply B2R_Bsign_inj; auto; try congruence.
  rewrite H3, Sa, Sb, Sc.
  destruct (Z.ltb_spec a 0); [lia|]; destruct (Z.ltb_spec b 0); [lia|]; destruct (Z.ltb_spec (a + b) 0); [lia|].
  destruct (Rcompare_spec (IZR (a + b)) 0) as [Hc|Hc|Hc]; try reflexivity.
  apply lt_IZR in Hc; lia.
Qed.
