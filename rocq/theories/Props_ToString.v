(** * C150: the text of a Vector. *)
From Flocq Require Import Core IEEE754.BinarySingleNaN.
From Coq Require Import Reals Lra Lia Ascii String.
From Verif Require Import Base Num Serie Spec BaseFacts F64 F64Facts.
From Verif Require Import ToString.
Import ListNotations.
Open Scope Z_scope.
Open Scope list_scope.
Opaque f64_of_Z.

(** ** reading a text *)
Definition is_digit (c : ascii) : Prop := (48 <= N_of_ascii c <= 57)%N.
(** the number written by decimal digits *)
Definition read (ds : text) : Z := fold_left (fun a c => 10 * a + (Z.of_N (N_of_ascii c) - 48)) ds 0.
(** the pieces of a text, each ended by a tab *)
Fixpoint pieces (t : text) (cur : text) : list text :=
  match t with
  | [] => []
  | c :: t' => if Ascii.eqb c "009" then cur :: pieces t' [] else pieces t' (cur ++ [c])
  end.

Lemma digit_ok d : 0 <= d < 10 -> is_digit (digit d) /\ Z.of_N (N_of_ascii (digit d)) - 48 = d /\ digit d <> tab /\ (digit d = "0"%char -> d = 0).
Proof.
  intros H; assert (E : d = 0 \/ d = 1 \/ d = 2 \/ d = 3 \/ d = 4 \/ d = 5 \/ d = 6 \/ d = 7 \/ d = 8 \/ d = 9) by lia.
  destruct E as [E|[E|[E|[E|[E|[E|[E|[E|[E|E]]]]]]]]]; subst d; unfold is_digit; cbn; repeat split; try lia; try discriminate.
Qed.
Lemma read_snoc ds c : read (ds ++ [c]) = 10 * read ds + (Z.of_N (N_of_ascii c) - 48).
Proof. unfold read; rewrite fold_left_app; reflexivity. Qed.

Lemma low_digits_ok k : forall n, 0 <= n < 10 ^ Z.of_nat k ->
  read (low_digits k n) = n /\ Forall is_digit (low_digits k n) /\ length (low_digits k n) = k.
Proof.
  induction k as [|k IH]; intros n Hn.
  - cbn in Hn; cbn; repeat split; [unfold read; cbn; lia|constructor].
  - assert (Hq : 0 <= n / 10 < 10 ^ Z.of_nat k).
    { split; [apply Z.div_pos; lia|]; apply Z.div_lt_upper_bound; [lia|].
      replace (Z.of_nat (S k)) with (Z.of_nat k + 1) in Hn by lia; rewrite Z.pow_add_r in Hn by lia; lia. }
    destruct (IH _ Hq) as (R & D & L); pose proof (Z.mod_pos_bound n 10 ltac:(lia)) as Hm.
    destruct (digit_ok _ Hm) as (Dd & Rd & _).
    cbn [low_digits]; rewrite read_snoc, R, Rd, app_length, L; split; [rewrite (Z.div_mod n 10) at 3 by lia; reflexivity|].
    split; [apply Forall_app; split; [exact D|constructor; [exact Dd|constructor]]|cbn; lia].
Qed.
Lemma all_digits_ok f : forall n, 0 <= n < 2 ^ Z.of_nat f -> n = 0 -> f <> O -> all_digits f n = ["0"%char].
Proof. intros n _ -> Hf; destruct f; [congruence|reflexivity]. Qed.
Lemma all_digits_read f : forall n, 0 <= n < 2 ^ Z.of_nat f -> f <> O ->
  read (all_digits f n) = n /\ Forall is_digit (all_digits f n) /\ all_digits f n <> [] /\
  (n <> 0 -> forall t, all_digits f n <> "0"%char :: t).
Proof.
  induction f as [|f IH]; intros n Hn Hf; [congruence|]; cbn [all_digits].
  destruct (Z.ltb_spec n 10) as [H|H].
  - destruct (digit_ok n ltac:(lia)) as (Dd & Rd & _ & Z0); unfold read; cbn [fold_left]; repeat split; try lia.
    + constructor; [exact Dd|constructor].
    + discriminate.
    + intros N t E; injection E as E _; apply N, Z0, E.
  - assert (F : f <> O) by (intros ->; cbn in Hn; lia).
    assert (Hq : 0 <= n / 10 < 2 ^ Z.of_nat f).
    { split; [apply Z.div_pos; lia|]; apply Z.div_lt_upper_bound; [lia|].
      replace (Z.of_nat (S f)) with (Z.of_nat f + 1) in Hn by lia; rewrite Z.pow_add_r in Hn by lia; lia. }
    destruct (IH _ Hq F) as (R & D & Ne & Lz); pose proof (Z.mod_pos_bound n 10 ltac:(lia)) as Hm.
    destruct (digit_ok _ Hm) as (Dd & Rd & _).
    rewrite read_snoc, R, Rd; split; [symmetry; apply Z.div_mod; lia|].
    split; [apply Forall_app; split; [exact D|constructor; [exact Dd|constructor]]|].
    split; [destruct (all_digits f (n / 10)); discriminate|].
    intros _ t E; destruct (all_digits f (n / 10)) as [|c u] eqn:Eu; [congruence|].
    cbn [app] in E; injection E as -> _; apply (Lz ltac:(assert (1 <= n / 10) by (apply Z.div_le_lower_bound; lia); lia) u); reflexivity.
Qed.
Lemma read_app a b : read (a ++ b) = read a * 10 ^ Z.of_nat (length b) + read b.
Proof.
  induction b as [|c b IH] using rev_ind; [rewrite app_nil_r; cbn; unfold read; cbn; lia|].
  rewrite app_assoc, !read_snoc, IH, app_length; cbn [length].
  replace (Z.of_nat (length b + 1)) with (Z.of_nat (length b) + 1) by lia; rewrite Z.pow_add_r by lia; lia.
Qed.
Lemma fixed6_ok n : 0 <= n -> exists ip fp, fixed6 n = ip ++ "."%char :: fp /\ Forall is_digit ip /\ Forall is_digit fp /\ length fp = 6%nat /\
  ip <> [] /\ (forall t, ip = "0"%char :: t -> t = []) /\ read (ip ++ fp) = n.
Proof.
  intros Hn; unfold fixed6; set (q := n / 1000000); set (r := n mod 1000000).
  assert (Hq : 0 <= q) by (apply Z.div_pos; lia).
  pose proof (Z.mod_pos_bound n 1000000 ltac:(lia)) as Hr; fold r in Hr.
  assert (B : 0 <= q < 2 ^ Z.of_nat (S (Z.to_nat (Z.log2 q)))).
  { split; [exact Hq|]; rewrite Nat2Z.inj_succ, Z2Nat.id by apply Z.log2_nonneg.
    destruct (Z.eq_dec q 0) as [->|N]; [cbn; lia|]; apply Z.log2_spec; lia. }
  destruct (all_digits_read _ q B ltac:(discriminate)) as (R & D & Ne & Lz).
  destruct (low_digits_ok 6 r ltac:(cbn; lia)) as (R' & D' & L').
  eexists _, _; split; [reflexivity|]; repeat (split; [assumption|]).
  split.
  - intros t E; destruct (Z.eq_dec q 0) as [Zq|N]; [|exfalso; exact (Lz N t E)].
    rewrite (all_digits_ok _ q B Zq ltac:(discriminate)) in E; injection E as <-; reflexivity.
  - rewrite read_app, R, R', L'; change (10 ^ Z.of_nat 6) with 1000000; unfold q, r; pose proof (Z.div_mod n 1000000 ltac:(lia)); lia.
Qed.

(** ** rounding *)
Lemma div_even_ok n d : 0 < d -> div_even n d = ZnearestE (IZR n / IZR d).
Proof.
  intros Hd; assert (Hdr : (0 < IZR d)%R) by (apply IZR_lt; exact Hd).
  pose proof (Z.div_mod n d ltac:(lia)) as Edm; pose proof (Z.mod_pos_bound n d Hd) as Hm.
  set (q := n / d) in *; set (r := n mod d) in *.
  assert (E : (IZR n / IZR d = IZR q + IZR r / IZR d)%R) by (rewrite Edm, plus_IZR, mult_IZR; field; lra).
  assert (Hr : (0 <= IZR r / IZR d < 1)%R).
  { split; [apply Rmult_le_pos; [apply IZR_le; lia|left; apply Rinv_0_lt_compat; exact Hdr]|].
    apply (Rmult_lt_reg_r (IZR d)); [exact Hdr|]; replace (IZR r / IZR d * IZR d)%R with (IZR r) by (field; lra); rewrite Rmult_1_l; apply IZR_lt; lia. }
  assert (Fl : Zfloor (IZR n / IZR d) = q).
  { apply Zfloor_imp; rewrite E, plus_IZR; lra. }
  unfold div_even, Znearest; fold q r; rewrite Fl.
  assert (Cmp : forall c, (2 * r ?= d) = c -> Rcompare (IZR n / IZR d - IZR q) (/ 2) = c).
  { intros c <-; replace (IZR n / IZR d - IZR q)%R with (IZR r / IZR d)%R by lra.
    assert (Q : Rcompare (IZR r / IZR d) (/ 2) = Rcompare (IZR (2 * r)) (IZR d)).
    { rewrite mult_IZR; rewrite <- (Rcompare_mult_r (2 * IZR d) (IZR r / IZR d)) by lra; f_equal; field; lra. }
    rewrite Q; apply Rcompare_IZR. }
  rewrite (Cmp _ eq_refl).
  assert (Ce : 0 < r -> Zceil (IZR n / IZR d) = q + 1).
  { intros Hp; apply Zceil_imp; rewrite E; replace (q + 1 - 1) with q by lia; rewrite plus_IZR.
    assert (0 < IZR r / IZR d)%R by (apply Rdiv_lt_0_compat; [apply IZR_lt; exact Hp|exact Hdr]); lra. }
  destruct (Z.compare_spec (2 * r) d) as [H|H|H].
  - rewrite Ce by lia; destruct (Z.even q); reflexivity.
  - reflexivity.
  - rewrite Ce by lia; reflexivity.
Qed.

(** the number of millionths nearest to |x|, ties to even *)
Definition micros (x : F64) : Z := ZnearestE (Rabs (B2R x) * 1000000).

Lemma ZnearestE_IZR n : ZnearestE (IZR n) = n.
Proof. apply (Zrnd_IZR ZnearestE). Qed.
Lemma micros_finite s m e p : micros (@B754_finite 53 1024 s m e p) = millionths m e /\ 0 <= millionths m e.
Proof.
  assert (E : micros (@B754_finite 53 1024 s m e p) = millionths m e).
  { unfold micros, millionths; cbn [B2R]; unfold F2R; cbn [Fnum Fexp].
    rewrite Rabs_mult, (Rabs_pos_eq (bpow radix2 e)) by apply bpow_ge_0.
    replace (Rabs (IZR (cond_Zopp s (Zpos m)))) with (IZR (Zpos m)) by (rewrite <- abs_IZR; destruct s; reflexivity).
    destruct (Z.leb_spec 0 e) as [He|He].
    - rewrite <- IZR_Zpower by exact He; rewrite <- !mult_IZR; apply ZnearestE_IZR.
    - rewrite div_even_ok by (apply Z.pow_pos_nonneg; lia); f_equal.
      replace e with (- (- e)) at 1 by lia; rewrite bpow_opp.
      change (2 ^ (- e)) with (Zpower radix2 (- e)); rewrite IZR_Zpower by lia; rewrite mult_IZR; unfold Rdiv; ring. }
  split; [exact E|]; rewrite <- E; unfold micros.
  rewrite <- (ZnearestE_IZR 0); apply (Zrnd_le ZnearestE).
  apply Rmult_le_pos; [apply Rabs_pos|lra].
Qed.

(** ** C150 *)
(** the text of a finite number: the sign, digits without superfluous zeros, a point, six digits; they write the number of
    millionths nearest to its absolute value *)
Theorem C150_number :
  forall x : F64, is_finite x = true ->
  exists ip fp, to_string x = (if Bsign x then ["-"%char] else []) ++ ip ++ "."%char :: fp /\
    Forall is_digit ip /\ Forall is_digit fp /\ length fp = 6%nat /\ ip <> [] /\ (forall t, ip = "0"%char :: t -> t = []) /\
    read (ip ++ fp) = micros x.
Proof.
  intros x Fx; destruct x as [s|s| |s m e p]; try discriminate Fx; cbn [to_string Bsign].
  - destruct (fixed6_ok 0 ltac:(lia)) as (ip & fp & E & H); exists ip, fp; rewrite E; split; [reflexivity|].
    replace (micros (B754_zero s)) with 0; [exact H|]; unfold micros; cbn [B2R]; rewrite Rabs_R0, Rmult_0_l; symmetry; apply ZnearestE_IZR.
  - destruct (micros_finite s m e p) as [Em Hm]; destruct (fixed6_ok _ Hm) as (ip & fp & E & H); exists ip, fp; rewrite E, Em; split; [reflexivity|exact H].
Qed.
Print Assumptions C150_number.
Theorem C150_special :
  to_string B754_nan = list_ascii_of_string "nan" /\ to_string (B754_infinity false) = list_ascii_of_string "inf" /\
  to_string (B754_infinity true) = list_ascii_of_string "-inf".
Proof. repeat split; reflexivity. Qed.
Print Assumptions C150_special.

(** so that the number read back is within half a millionth, and the number itself if it has six decimals *)
Theorem C150_read_back :
  forall x : F64,
  (Rabs (IZR (micros x) / 1000000 - Rabs (B2R x)) <= 5 / 10000000)%R /\
  (forall n, (Rabs (B2R x) * 1000000 = IZR n)%R -> micros x = n) /\
  (forall y : F64, (Rabs (B2R x) <= Rabs (B2R y))%R -> micros x <= micros y).
Proof.
  intros x; split; [|split].
  - pose proof (Znearest_half (fun n => negb (Z.even n)) (Rabs (B2R x) * 1000000)) as H; fold (micros x) in H.
    replace (IZR (micros x) / 1000000 - Rabs (B2R x))%R with (- ((Rabs (B2R x) * 1000000 - IZR (micros x)) / 1000000))%R by field.
    rewrite Rabs_Ropp; unfold Rdiv at 1; rewrite Rabs_mult, (Rabs_pos_eq (/ 1000000)) by lra; lra.
  - intros n E; unfold micros; rewrite E; apply ZnearestE_IZR.
  - intros y H; unfold micros; apply (Zrnd_le ZnearestE); lra.
Qed.
Print Assumptions C150_read_back.

Lemma app_point ip fp ip' fp' : Forall is_digit ip -> Forall is_digit ip' -> ip ++ "."%char :: fp = ip' ++ "."%char :: fp' -> ip = ip' /\ fp = fp'.
Proof.
  intros D; revert ip'; induction D as [|c ip Dc D IH]; intros [|c' ip'] D' E; cbn [app] in E; inversion D'; subst.
  - injection E as <-; auto.
  - injection E as <- E; exfalso; unfold is_digit in *; cbn in *; lia.
  - injection E as -> E; exfalso; unfold is_digit in *; cbn in *; lia.
  - injection E as <- E; destruct (IH ip') as [-> ->]; auto.
Qed.

(** two finite numbers have the same text exactly when they have the same sign and round to the same millionths; they are then
    within one millionth *)
Theorem C150_same_text :
  forall x y : F64, is_finite x = true -> is_finite y = true ->
  (to_string x = to_string y <-> Bsign x = Bsign y /\ micros x = micros y) /\
  (to_string x = to_string y -> (Rabs (B2R x - B2R y) <= 1 / 1000000)%R).
Proof.
  intros x y Fx Fy.
  assert (I : to_string x = to_string y <-> Bsign x = Bsign y /\ micros x = micros y).
  { split; intros H.
    - destruct (C150_number x Fx) as (ip & fp & E & D & D' & L & Ne & _ & R); destruct (C150_number y Fy) as (ip1 & fp1 & E1 & D1 & D1' & L1 & Ne1 & _ & R1).
      rewrite E, E1 in H; clear E E1.
      assert (M : forall (i i' f f' : text), Forall is_digit i -> i <> [] -> ["-"%char] ++ i' ++ f' = i ++ f -> False).
      { intros i i' f f' Di Ni Q; destruct i as [|c i]; [congruence|]; cbn [app] in Q; injection Q as <- _; inversion Di; subst; unfold is_digit in *; cbn in *; lia. }
      destruct (Bsign x), (Bsign y); cbn [app] in H.
      + injection H as H; apply app_point in H; try assumption; destruct H as [<- <-]; split; [reflexivity|congruence].
      + exfalso; exact (M ip1 ip _ _ D1 Ne1 H).
      + exfalso; exact (M ip ip1 _ _ D Ne (eq_sym H)).
      + apply app_point in H; try assumption; destruct H as [<- <-]; split; [reflexivity|congruence].
    - destruct H as [S M]; assert (Q : forall z : F64, is_finite z = true -> to_string z = sign_text (Bsign z) ++ fixed6 (micros z)).
      { intros z Fz; destruct z as [s|s| |s m e p]; try discriminate Fz; cbn [to_string Bsign]; f_equal; f_equal.
        - unfold micros; cbn [B2R]; rewrite Rabs_R0, Rmult_0_l; symmetry; apply ZnearestE_IZR.
        - symmetry; apply micros_finite. }
      rewrite !Q, S, M by assumption; reflexivity. }
  split; [exact I|]; intros H; apply I in H; destruct H as [S M].
  assert (A : (Rabs (Rabs (B2R x) - Rabs (B2R y)) <= 1 / 1000000)%R).
  { destruct (C150_read_back x) as [Hx _]; destruct (C150_read_back y) as [Hy _]; rewrite M in Hx.
    apply Rabs_le; apply Rabs_le_inv in Hx, Hy; lra. }
  assert (Sg : forall z : F64, is_finite z = true -> B2R z = if Bsign z then (- Rabs (B2R z))%R else Rabs (B2R z)).
  { intros z Fz; destruct z as [s|s| |s m e p]; try discriminate Fz; cbn [B2R Bsign].
    - rewrite Rabs_R0; destruct s; lra.
    - unfold F2R; cbn [Fnum Fexp]; rewrite Rabs_mult, (Rabs_pos_eq (bpow radix2 e)) by apply bpow_ge_0; rewrite <- abs_IZR.
      destruct s; cbn [cond_Zopp Z.opp Z.abs]; [|reflexivity]; change (Zneg m) with (- Zpos m); rewrite opp_IZR; ring. }
  rewrite (Sg x Fx), (Sg y Fy), S; destruct (Bsign y); [|exact A].
  replace (- Rabs (B2R x) - - Rabs (B2R y))%R with (- (Rabs (B2R x) - Rabs (B2R y)))%R by ring; rewrite Rabs_Ropp; exact A.
Qed.
Print Assumptions C150_same_text.

(** ** the Vector *)
Lemma no_tab (x : F64) : ~ In "009"%char (to_string x).
Proof.
  assert (G : forall n, 0 <= n -> ~ In "009"%char (fixed6 n)).
  { intros n Hn; destruct (fixed6_ok n Hn) as (ip & fp & -> & D & D' & _); rewrite in_app_iff; cbn [In]; rewrite Forall_forall in *.
    intros [H|[H|H]]; [apply D in H|discriminate H|apply D' in H]; unfold is_digit in H; cbn in H; lia. }
  destruct x as [s|s| |s m e p]; cbn [to_string]; rewrite ?in_app_iff.
  - intros [H|H]; [destruct s; cbn in H; intuition discriminate|exact (G 0 ltac:(lia) H)].
  - intros [H|H]; [destruct s; cbn in H; intuition discriminate|cbn in H; intuition discriminate].
  - cbn; intuition discriminate.
  - intros [H|H]; [destruct s; cbn in H; intuition discriminate|exact (G _ (proj2 (micros_finite s m e p)) H)].
Qed.
Lemma pieces_app t : ~ In "009"%char t -> forall cur rest, pieces (t ++ "009"%char :: rest) cur = (cur ++ t) :: pieces rest [].
Proof.
  induction t as [|c t IH]; intros N cur rest; cbn [app pieces].
  - rewrite Ascii.eqb_refl, app_nil_r; reflexivity.
  - destruct (Ascii.eqb_spec c "009") as [->|Hc]; [exfalso; apply N; left; reflexivity|].
    rewrite IH by (intros H; apply N; right; exact H); rewrite <- app_assoc; reflexivity.
Qed.

(** the text of a Vector is the texts of its components, each followed by a tab *)
Theorem C150_vector :
  forall v : list F64, exists t, v_toString v = Ok t /\ t = concat (map (fun x => to_string x ++ ["009"%char]) v) /\ pieces t [] = map to_string v.
Proof.
  intros v; eexists; split; [|split; [reflexivity|]].
  - unfold v_toString.
    assert (G : forall w u acc, v = u ++ w -> foldO (fun s i => let* x := rd v i in Ok (s ++ to_string x ++ [tab])) (seqZ (length u) (length w)) acc
                = Ok (acc ++ concat (map (fun x => to_string x ++ [tab]) w))).
    { induction w as [|x w IH]; intros u acc E; [cbn; rewrite app_nil_r; reflexivity|].
      cbn [length map concat]; rewrite seqZ_S; cbn [foldO].
      rewrite (rd_nat v (length u) x) by (rewrite E, nth_error_app2, Nat.sub_diag by lia; reflexivity); cbn [obind].
      specialize (IH (u ++ [x]) (acc ++ to_string x ++ [tab])); rewrite app_length in IH; cbn [length] in IH.
      replace (length u + 1)%nat with (S (length u)) in IH by lia; rewrite IH by (rewrite <- app_assoc; exact E).
      rewrite <- !app_assoc; reflexivity. }
    rewrite iota_len; exact (G v [] [] eq_refl).
  - induction v as [|x v IH]; [reflexivity|]; cbn [map concat]; rewrite <- app_assoc; cbn [app].
    rewrite (pieces_app _ (no_tab x)), IH; reflexivity.
Qed.
Print Assumptions C150_vector.

(** two Vectors have the same text exactly when they have the same length and their components the same texts *)
Theorem C150_vectors :
  forall v w : list F64, v_toString v = v_toString w <-> map to_string v = map to_string w.
Proof.
  intros v w; destruct (C150_vector v) as (t & -> & Et & P); destruct (C150_vector w) as (t' & -> & Et' & P'); split; intros H.
  - injection H as <-; congruence.
  - f_equal; rewrite Et, Et', <- !flat_map_concat_map; clear -H; revert w H; induction v as [|x v IH]; intros [|y w] H; try discriminate H; [reflexivity|].
    cbn [map] in H; injection H as E H; cbn [flat_map]; rewrite E, (IH w H); reflexivity.
Qed.
Print Assumptions C150_vectors.

(** the text does not determine the Vector: small numbers are all printed as zero *)
Theorem C150_not_injective :
  exists x y : F64, v_toString [x] = v_toString [y] /\ B2R x <> B2R y /\ Bltb y x = true.
Proof.
  exists (@B754_finite 53 1024 false 4503599627370496 (-82) eq_refl), (B754_zero false).
  split; [vm_compute; reflexivity|]; split; [|vm_compute; reflexivity].
  intros Q; cbn [B2R] in Q; unfold F2R in Q; cbn [Fnum Fexp cond_Zopp] in Q.
  pose proof (bpow_gt_0 radix2 (-82)); lra.
Qed.
Print Assumptions C150_not_injective.

Example C150_ex : map (fun x => string_of_list_ascii (to_string x))
  [@B754_finite 53 1024 true 4503599627370497 (-30) eq_refl; #3; #1000000; B754_zero true; f64_inf; f64_nan; @B754_finite 53 1024 false 4503599627370496 (-52) eq_refl;
   @B754_finite 53 1024 false 4503599627370496 (-59) eq_refl; @B754_finite 53 1024 false 6755399441055744 (-58) eq_refl]
  = ["-4194304.000000"; "3.000000"; "1000000.000000"; "-0.000000"; "inf"; "nan"; "1.000000"; "0.007812"; "0.023438"]%string.
Proof. Transparent f64_of_Z. vm_compute; reflexivity. Qed.
Opaque f64_of_Z.
(** 1 and 2.5: "1.000000<tab>2.500000<tab>" *)
Example C150_vector_ex : v_toString [#1; @B754_finite 53 1024 false 5629499534213120 (-51) eq_refl] = Ok (list_ascii_of_string "1.000000" ++ ["009"%char] ++ list_ascii_of_string "2.500000" ++ ["009"%char]).
Proof. Transparent f64_of_Z. vm_compute; reflexivity. Qed.
Opaque f64_of_Z.
