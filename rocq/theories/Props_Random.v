(** * C102: random Series. *)
From Verif Require Import Base Num Serie Spec BaseFacts SerieFacts F64 F64Facts F64Arith F64Round Random.
From Coq Require Import Reals Lra Psatz.
From Flocq Require Import Core.Core IEEE754.BinarySingleNaN.
Open Scope Z_scope.

(** ** Specification *)
(** [draws d st xs st']: drawing one value after the other, starting in the state [st], gives [xs] and ends in [st'] *)
Inductive draws {St T} (d : M St T) : St -> list T -> St -> Prop :=
| draws_nil : forall st, draws d st [] st
| draws_cons : forall st x st1 xs st2, d st = (Ok x, st1) -> draws d st1 xs st2 -> draws d st (x :: xs) st2.
(** every draw returns *)
Definition total_draw {St T} (d : M St T) : Prop := forall st, exists x st', d st = (Ok x, st').
(** a finite double between two others *)
Definition within (a b x : F64) : Prop := is_finite x = true /\ (B2R a <= B2R x <= B2R b)%R.

(** ** The values go into the Serie in the order in which they are drawn *)
Section Fill.
  Context {T St : Type} {NT : Num T}.
  Variable d : M St T.

  Lemma draws_inv st x xs st2 : draws d st (x :: xs) st2 -> exists st1, d st = (Ok x, st1) /\ draws d st1 xs st2.
  Proof. intros H; inversion H; subst; eexists; split; eassumption. Qed.
  Lemma draws_nil_inv st st2 : draws d st [] st2 -> st2 = st.
  Proof. intros H; inversion H; subst; reflexivity. Qed.
  Lemma draws_app st xs ys st2 : draws d st (xs ++ ys) st2 -> exists st1, draws d st xs st1 /\ draws d st1 ys st2.
  Proof.
    revert st; induction xs as [|x xs IH]; cbn [app]; intros st H; [exists st; split; [constructor|exact H]|].
    apply draws_inv in H as (s0 & E & H); destruct (IH _ H) as (s1 & A & B); exists s1; split; [econstructor; eassumption|exact B].
  Qed.
  Lemma draws_mapM {A} (l : list A) : forall st xs st', length l = length xs -> draws d st xs st' -> mapM (fun _ => d) l st = (Ok xs, st').
  Proof.
    induction l as [|a l IH]; intros st [|x xs] st' Hl H; try discriminate Hl; [apply draws_nil_inv in H; subst; reflexivity|].
    apply draws_inv in H as (s0 & E & H); cbn [mapM]; unfold mbind at 1; rewrite E; unfold mbind; rewrite (IH s0 xs st') by (try assumption; cbn in Hl; lia); reflexivity.
  Qed.
  Lemma total_mapM (Hd : total_draw d) {A} (l : list A) : forall st, exists xs st', length xs = length l /\ mapM (fun _ => d) l st = (Ok xs, st').
  Proof.
    induction l as [|a l IH]; intros st; [exists [], st; split; reflexivity|].
    destruct (Hd st) as (x & s1 & E); destruct (IH s1) as (xs & s2 & L & E2); exists (x :: xs), s2; split; [cbn; lia|].
    cbn [mapM]; unfold mbind at 1; rewrite E; unfold mbind; rewrite E2; reflexivity.
  Qed.

  Definition rstep (k : Z) (result : Serie T) (i : Z) : M St (Serie T) :=
    if k =? 1 then let! x := d in lift (set_double result i x)
    else let! values := mapM (fun _ => d) (iota k) in lift (set_array result i values).

  Lemma rstep_ok k dim done r old x st st' :
    0 <= k < 2147483648 -> rows_of_size k (done ++ old :: r) -> k * len (done ++ old :: r) < 4294967296 -> len (done ++ old :: r) < 4294967296 ->
    len x = k -> draws d st x st' ->
    rstep k (mk k (done ++ old :: r) dim) (len done) st = (Ok (mk k (done ++ x :: r) dim), st').
  Proof.
    intros Hk Hr Hm Hn Hx Hd; unfold rstep; destruct (Z.eqb_spec k 1) as [E|E].
    - rewrite E in *; clear E; destruct x as [|v [|]]; try (unfold len in Hx; cbn [length] in Hx; lia).
      apply draws_inv in Hd as (s0 & E & Hd); apply draws_nil_inv in Hd; subst; unfold mbind; rewrite E; unfold lift.
      assert (C : forall l : list (list T), rows_of_size 1 l -> exists xs, l = col xs).
      { clear; induction l as [|a l IH]; intros H; [exists []; reflexivity|].
        apply Forall_cons_iff in H as [Ha Hl]; destruct (IH Hl) as (xs & ->); destruct a as [|u [|]]; unfold len in Ha; cbn [length] in Ha; try lia; exists (u :: xs); reflexivity. }
      destruct (C done) as (ds & Ed); [apply Forall_app in Hr; apply Hr|].
      destruct (C (old :: r)) as (os & Eo); [apply Forall_app in Hr; apply Hr|].
      destruct os as [|o os]; [discriminate Eo|]; unfold col in Eo; cbn [map] in Eo; injection Eo as Eo1 Eo2; subst.
      replace (map (fun x : T => [x]) ds) with (@col T ds) by reflexivity.
      f_equal; transitivity (set_double (mk 1 (col (ds ++ o :: os)) dim) (len (col ds)) v); [unfold col; rewrite map_app; reflexivity|].
      assert (Ll : len (col ds) = len ds) by (unfold len, col; rewrite map_length; reflexivity); rewrite Ll.
      rewrite set_double_mk by (rewrite len_app, len_cons; pose proof (len_nonneg ds); pose proof (len_nonneg os); lia).
      unfold len; rewrite Nat2Z.id, upd_nat_mid; unfold col; rewrite map_app; reflexivity.
    - unfold mbind; rewrite (draws_mapM _ st x st'); [|rewrite iota_seqZ, seqZ_length; unfold len in Hx; lia|exact Hd]; unfold lift; f_equal.
      rewrite set_array_mk.
      + unfold len; rewrite Nat2Z.id, upd_nat_mid; reflexivity.
      + apply repr_mk; assumption || lia.
      + rewrite len_app, len_cons; pose proof (len_nonneg done); pose proof (len_nonneg r); lia.
      + exact Hx.
  Qed.
  Lemma rfill k dim (Hk : 0 <= k < 2147483648) : forall todo done old st st',
    length old = length todo -> rows_of_size k (done ++ old) -> rows_of_size k todo ->
    k * len (done ++ old) < 4294967296 -> len (done ++ old) < 4294967296 ->
    draws d st (concat todo) st' ->
    foldM (rstep k) (seqZ (length done) (length todo)) (mk k (done ++ old) dim) st = (Ok (mk k (done ++ todo) dim), st').
  Proof.
    induction todo as [|x todo IH]; intros done old st st' Hl Hr Ht Hm Hn Hd.
    - destruct old; [|discriminate]; inversion Hd; subst; reflexivity.
    - destruct old as [|o old]; [discriminate|]; cbn [length]; rewrite seqZ_S; cbn [foldM]; unfold mbind at 1.
      cbn [concat] in Hd; destruct (draws_app _ _ _ _ Hd) as (s1 & D1 & D2); inversion Ht; subst.
      change (Z.of_nat (length done)) with (len done); rewrite (rstep_ok _ dim done old o x st s1) by assumption || reflexivity.
      specialize (IH (done ++ [x]) old s1 st'); rewrite app_length in IH; cbn [length] in IH; rewrite Nat.add_1_r in IH; rewrite <- !app_assoc in IH; cbn [app] in IH.
      apply IH; try assumption.
      + cbn in Hl; lia.
      + apply Forall_app in Hr as [R1 R2]; inversion R2; subst; apply Forall_app; split; [assumption|constructor; [reflexivity|assumption]].
      + rewrite len_app, len_cons in *; lia.
      + rewrite len_app, len_cons in *; lia.
  Qed.

  (** C102: the Serie holds the drawn values in order, none lost, none drawn in vain *)
  Theorem C102_fills k rows st st' : 0 <= k < 2147483648 -> rows_of_size k rows -> k * len rows < 4294967296 -> len rows < 4294967296 ->
    draws d st (concat rows) st' -> random d (len rows) k st = (Ok (mk k rows 3), st').
  Proof.
    intros Hk Hr Hm Hn Hd; unfold random; pose proof (len_nonneg rows) as P.
    rewrite s32_small by (unfold two31; lia); rewrite serie_n_mk by lia; rewrite iota_len.
    apply (rfill k 3 Hk rows [] (zrows k (len rows)) st st'); try assumption.
    - unfold zrows; rewrite repeat_length; unfold len; lia.
    - apply rows_zrows; lia.
    - cbn [app]; rewrite len_zrows by lia; lia.
    - cbn [app]; rewrite len_zrows by lia; lia.
  Qed.

  (** an item size that does not fit [int]: the first item is refused *)
  Theorem C102_item_size_throws k n st : total_draw d -> 2147483648 <= k < 4294967296 -> 0 < n -> fst (random d n k st) = Throw InvalidArgument.
  Proof.
    intros Hd Hk Hn; unfold random; rewrite (iota_seqZ n); destruct (Z.to_nat n) as [|m] eqn:E; [lia|]; rewrite seqZ_S; cbn [foldM]; unfold mbind at 1.
    destruct (Z.eqb_spec k 1) as [|_]; [lia|]; unfold mbind at 1.
    destruct (total_mapM Hd (iota k) st) as (xs & s1 & L & ->); unfold lift, set_array; cbn [count_ serie_n itemSize_].
    destruct (Z.leb_spec n (Z.of_nat 0)) as [|_]; [lia|].
    assert (Lx : len xs = k) by (unfold len; rewrite L, iota_seqZ, seqZ_length; lia); rewrite Lx.
    assert (Es : s32 k = k - 4294967296).
    { unfold s32, two31, two32; rewrite <- (Z.mod_unique (k + 2147483648) 4294967296 1 (k - 2147483648)) by lia; lia. }
    assert (Eu : u64 (k - 4294967296) = k - 4294967296 + two64) by (unfold u64, two64; symmetry; apply (Z.mod_unique _ _ (-1)); lia).
    rewrite Es, Eu; destruct (Z.eqb_spec k (k - 4294967296 + two64)) as [X|_]; [unfold two64 in X; lia|]; reflexivity.
  Qed.

  (** the storage is [n * k] modulo 2^32: a larger Serie is written past its end *)
  Lemma write_prefix k i (v : list T) : 0 <= k -> len v = k -> forall m dat, (m <= Z.to_nat k)%nat -> 0 <= i -> i * k + Z.of_nat m <= len dat -> len dat <= 4294967296 ->
    exists dat', foldO (fun d j => let* x := rd v j in wr d (u32 (u32 (i * k) + j)) x) (seqZ 0 m) dat = Ok dat' /\ len dat' = len dat.
  Proof.
    intros Hk Hv m dat; induction m as [|m IH]; intros Hm Hi Hb Hd; [exists dat; split; reflexivity|].
    destruct IH as (d1 & E1 & L1); try lia.
    rewrite <- Nat.add_1_r, seqZ_app, foldO_app, E1; cbn [seqZ map seq foldO obind Nat.add].
    destruct (rd_in_range v (Z.of_nat m)) as (x & Ex & _); [lia|]; rewrite Ex; cbn [obind].
    assert (0 <= i * k) by nia; rewrite (u32_small (i * k)) by lia; rewrite u32_small by lia; rewrite wr_ok by lia; cbn [obind].
    eexists; split; [reflexivity|]; rewrite len_upd; exact L1.
  Qed.
  Lemma set_array_short (s : Serie T) k i v : itemSize_ s = k -> 2 <= k < 2147483648 -> len v = k -> 0 <= i < count_ s -> i * k <= len (s_ s) < 4294967296 -> 
    len (s_ s) < i * k + k -> set_array s i v = UB.
  Proof.
    intros Hs Hk Hv Hi Hb Hs2; unfold set_array; destruct (Z.leb_spec (count_ s) i) as [|_]; [lia|].
    rewrite Hs, u64_small by (unfold two64; lia); rewrite Hv, Z.eqb_refl; cbn [negb]; unfold write_item; rewrite Hs.
    set (m := Z.to_nat (len (s_ s) - i * k)).
    replace (iota k) with (seqZ 0 m ++ Z.of_nat m :: seqZ (S m) (Z.to_nat k - S m)).
    2: { rewrite <- seqZ_S, iota_seqZ; change m with (0 + m)%nat at 2; rewrite <- seqZ_app; f_equal; subst m; lia. }
    destruct (write_prefix k i v ltac:(lia) Hv m (s_ s)) as (d1 & E1 & L1); try (subst m; lia).
    rewrite foldO_app, E1; cbn [obind foldO].
    destruct (rd_in_range v (Z.of_nat m)) as (x & Ex & _); [subst m; lia|]; rewrite Ex; cbn [obind].
    assert (0 <= i * k) by nia; rewrite (u32_small (i * k)) by lia; rewrite u32_small by (subst m; lia).
    assert (W : wr d1 (i * k + Z.of_nat m) x = UB); [|rewrite W; reflexivity].
    unfold wr; destruct (Z.ltb_spec (i * k + Z.of_nat m) (len d1)) as [X|]; [exfalso; rewrite L1 in X; subst m; lia|]; rewrite andb_false_r; reflexivity.
  Qed.
  Lemma set_array_fits (s : Serie T) k i v : itemSize_ s = k -> 2 <= k < 2147483648 -> len v = k -> 0 <= i < count_ s -> i * k + k <= len (s_ s) < 4294967296 ->
    exists s', set_array s i v = Ok s' /\ len (s_ s') = len (s_ s) /\ itemSize_ s' = k /\ count_ s' = count_ s.
  Proof.
    intros Hs Hk Hv Hi Hb; unfold set_array; destruct (Z.leb_spec (count_ s) i) as [|_]; [lia|].
    rewrite Hs, u64_small by (unfold two64; lia); rewrite Hv, Z.eqb_refl; cbn [negb]; unfold write_item; rewrite Hs, iota_seqZ.
    destruct (write_prefix k i v ltac:(lia) Hv (Z.to_nat k) (s_ s)) as (d1 & E1 & L1); try lia.
    rewrite E1; cbn [obind]; eexists; split; [reflexivity|]; cbn; auto.
  Qed.
  Lemma random_short k (Hd : total_draw d) : forall m a (s : Serie T) st, itemSize_ s = k -> 2 <= k < 2147483648 -> 
    Z.of_nat (a + m) <= count_ s -> Z.of_nat a * k <= len (s_ s) < 4294967296 -> len (s_ s) < Z.of_nat (a + m) * k ->
    fst (foldM (rstep k) (seqZ a m) s st) = UB.
  Proof.
    induction m as [|m IH]; intros a s st Hs Hk Hc Hb Hl; [rewrite Nat.add_0_r in Hl; lia|].
    rewrite seqZ_S; cbn [foldM]; unfold mbind at 1; unfold rstep at 1; destruct (Z.eqb_spec k 1) as [|_]; [lia|]; unfold mbind at 1.
    destruct (total_mapM Hd (iota k) st) as (xs & s1 & L & ->); unfold lift.
    assert (Lx : len xs = k) by (unfold len; rewrite L, iota_seqZ, seqZ_length; lia).
    destruct (Z.lt_ge_cases (len (s_ s)) (Z.of_nat a * k + k)) as [Hq|Hq].
    - rewrite (set_array_short s k _ xs); try assumption; try lia; reflexivity.
    - destruct (set_array_fits s k (Z.of_nat a) xs) as (s' & E & A & B & C); try assumption; try lia.
      rewrite E; apply IH; try assumption; rewrite ?A, ?C, ?B; lia.
  Qed.
  Theorem C102_overflow k n st : total_draw d -> 2 <= k < 2147483648 -> 0 <= n < 4294967296 -> 4294967296 <= n * k -> fst (random d n k st) = UB.
  Proof.
    intros Hd Hk Hn Ho; unfold random; rewrite s32_small by lia; rewrite (iota_seqZ n).
    assert (Hu : 0 <= u32 (n * k) < 4294967296) by (unfold u32, two32; apply Z.mod_pos_bound; lia).
    assert (L : len (replicate (u32 (n * k)) n0) = u32 (n * k)) by (unfold replicate; rewrite len_repeat; lia).
    apply (random_short k Hd (Z.to_nat n) 0 (serie_n k n 3) st); cbn [serie_n itemSize_ count_ s_]; rewrite ?L; try lia.
  Qed.
End Fill.

(** ** Every value is between the bounds *)
Lemma zero_ok : B2R #0 = 0%R /\ is_finite #0 = true.
Proof. destruct (f64_of_Z_correct 0 ltac:(lia)) as (A & B & _); auto. Qed.

(** C102: the distribution of libstdc++, in binary64 *)
Theorem C102_uniform {St} L (can : M St F64) a b c st st' :
  is_finite a = true -> is_finite b = true -> is_finite (f64_sub b a) = true -> (B2R a <= B2R b)%R ->
  can st = (Ok c, st') -> is_finite c = true -> (0 <= B2R c < 1)%R ->
  exists x, uniform (H := f64_num L) can a b st = (Ok x, st') /\ within a b x.
Proof.
  intros Fa Fb Fd Hab Hc Fc Hc01; unfold uniform, mbind; rewrite Hc; unfold ret; cbn [n_add n_sub n_mul f64_num]; eexists; split; [reflexivity|].
  pose proof (sub_finite b a Fb Fa Fd) as Rg; destruct (sub_ok b a Fb Fa Rg) as [Ed _].
  set (D := f64_sub b a) in *.
  assert (D0 : (0 <= B2R D)%R) by (rewrite Ed, <- rnd_0; apply rnd_le; lra).
  assert (Hm : (B2R #0 <= B2R c * B2R D <= B2R D)%R) by (rewrite (proj1 zero_ok); nra).
  destruct (mul_ok c D Fc Fd (range_between _ _ _ Hm)) as [Em Fm].
  assert (M0 : (0 <= B2R (f64_mul c D))%R) by (rewrite Em, <- (proj1 zero_ok); apply (rnd_between _ _ _ Hm)).
  assert (M1 : (B2R (f64_mul c D) <= B2R b - B2R a)%R).
  { rewrite Em, Ed; apply scaled_below; [apply fmt_B2R|exact Hc01|lra|exists b, a; reflexivity]. }
  assert (Hs : (B2R a <= B2R (f64_mul c D) + B2R a <= B2R b)%R) by lra.
  destruct (add_ok (f64_mul c D) a Fm Fa (range_between _ _ _ Hs)) as [Es Fs].
  split; [exact Fs|]; rewrite Es; apply (rnd_between _ _ _ Hs).
Qed.

(** *** The number below one of libstdc++ *)
Definition is_word (w : Z) : Prop := 0 <= w < 2 ^ 32.

Lemma fmt_scaled m e : Z.abs m < 2 ^ 53 -> 0 <= e <= 100 -> fmt (IZR m * bpow radix2 e).
Proof.
  intros Hm He; change (IZR m * bpow radix2 e)%R with (F2R (Float radix2 m e)); apply (generic_format_FLT radix2 (SpecFloat.emin 53 1024) 53).
  exists (Float radix2 m e); [reflexivity|exact Hm|unfold SpecFloat.emin; cbn [Fexp]; lia].
Qed.
Lemma below_one_ok : is_finite below_one = true /\ (0 <= B2R below_one < 1)%R.
Proof.
  unfold below_one.
  destruct (f64_of_Z_correct (2 ^ 53 - 1) ltac:(lia)) as (A & FA & _); destruct (f64_of_Z_correct (2 ^ 53) ltac:(lia)) as (B & FB & _).
  assert (Eb : IZR (2 ^ 53) = bpow radix2 53) by reflexivity.
  assert (E : (IZR (2 ^ 53 - 1) / IZR (2 ^ 53) = pred radix2 (SpecFloat.fexp 53 1024) (bpow radix2 0))%R).
  { rewrite pred_bpow; change (SpecFloat.fexp 53 1024 0) with (-53); change (bpow radix2 0) with 1%R; rewrite minus_IZR, Eb.
    change (-53) with (- (53)); rewrite bpow_opp; pose proof (bpow_gt_0 radix2 53); field; lra. }
  assert (F : fmt (pred radix2 (SpecFloat.fexp 53 1024) (bpow radix2 0))).
  { apply generic_format_pred; [exact fexp_valid|]; apply generic_format_bpow; unfold SpecFloat.fexp, SpecFloat.emin; lia. }
  assert (Lt : (pred radix2 (SpecFloat.fexp 53 1024) (bpow radix2 0) < 1)%R) by (apply pred_lt_id; change (bpow radix2 0) with 1%R; lra).
  assert (Ge : (0 <= pred radix2 (SpecFloat.fexp 53 1024) (bpow radix2 0))%R).
  { rewrite <- E; apply Rmult_le_pos; [apply IZR_le; lia|left; apply Rinv_0_lt_compat, IZR_lt; lia]. }
  destruct (div_ok (f64_of_Z (2 ^ 53 - 1)) (f64_of_Z (2 ^ 53)) FA) as [Ed Fd].
  - rewrite B; apply not_0_IZR; lia.
  - rewrite A, B, E; unfold in_range; rewrite (rnd_fmt _ F), Rabs_pos_eq by exact Ge; apply Rlt_trans with (1 := Lt).
    change 1%R with (bpow radix2 0); apply bpow_lt; lia.
  - rewrite A, B, E, (rnd_fmt _ F) in Ed; split; [exact Fd|rewrite Ed; split; assumption].
Qed.
Lemma pow_ok e : 0 <= e <= 100 -> B2R (f64_of_Z (2 ^ e)) = bpow radix2 e /\ is_finite (f64_of_Z (2 ^ e)) = true.
Proof.
  intros He; pose proof (binary_normalize_correct 53 1024 F64_prec F64_emax mode_NE (2 ^ e) 0 false) as C.
  assert (E : F2R (Float radix2 (2 ^ e) 0) = bpow radix2 e) by (unfold F2R; cbn [Fnum Fexp]; rewrite Rmult_1_r; change 2 with (radix_val radix2) at 1; apply IZR_Zpower; lia).
  assert (F : fmt (bpow radix2 e)) by (apply generic_format_bpow; unfold SpecFloat.fexp, SpecFloat.emin; lia).
  cbn zeta in C; unfold round_mode in C; rewrite E, (rnd_fmt _ F), Rabs_pos_eq in C by apply bpow_ge_0.
  rewrite Rlt_bool_true in C by (apply bpow_lt; lia); split; apply C.
Qed.

Theorem C102_canonical {St} (word : St -> Z * St) (good : St -> Prop) : (forall st, good st -> is_word (fst (word st)) /\ good (snd (word st))) ->
  forall st, good st -> exists c st', Random.canonical word st = (Ok c, st') /\ good st' /\ is_finite c = true /\ (0 <= B2R c < 1)%R.
Proof.
  intros Hw st Hg; unfold Random.canonical; destruct (Hw st Hg) as [W0 G1]; destruct (word st) as [w0 s1]; cbn [fst snd] in W0, G1; destruct (Hw s1 G1) as [W1 G2]; destruct (word s1) as [w1 s2]; cbn [fst snd] in W1, G2; unfold is_word in W0, W1.
  rewrite f64_mul_1; change (f64_of_Z 0) with #0.
  assert (E0 : f64_add #0 (f64_of_Z w0) = f64_of_Z w0) by (change w0 with (0 + w0) at 2; apply f64_add_int; lia); rewrite E0.
  destruct (f64_of_Z_correct w0 ltac:(lia)) as (A0 & F0 & _); destruct (f64_of_Z_correct w1 ltac:(lia)) as (A1 & F1 & _).
  destruct (pow_ok 32 ltac:(lia)) as [B32 G32]; destruct (pow_ok 64 ltac:(lia)) as [B64 G64].
  pose proof (fmt_scaled w1 32 ltac:(lia) ltac:(lia)) as Fs.
  assert (P32 : bpow radix2 32 = 4294967296%R) by reflexivity.
  assert (P64 : (bpow radix2 64 = 4294967296 * 4294967296)%R) by (change 64 with (32 + 32); rewrite bpow_plus; reflexivity).
  assert (R0 : (0 <= IZR w0 <= 4294967295)%R) by (split; apply IZR_le; lia).
  assert (R1 : (0 <= IZR w1 <= 4294967295)%R) by (split; apply IZR_le; lia).
  assert (H1 : (B2R #0 <= IZR w1 * bpow radix2 32 <= B2R (f64_of_Z (2 ^ 64)))%R) by (rewrite (proj1 zero_ok), B64, P64, P32; nra).
  destruct (mul_ok (f64_of_Z w1) (f64_of_Z (2 ^ 32)) F1 G32) as [M1 FM1].
  { rewrite A1, B32; apply (range_between _ _ _ H1). }
  rewrite A1, B32, (rnd_fmt _ Fs) in M1; set (m := f64_mul (f64_of_Z w1) (f64_of_Z (2 ^ 32))) in *.
  assert (H2 : (B2R #0 <= IZR w0 + B2R m <= B2R (f64_of_Z (2 ^ 64)))%R) by (rewrite (proj1 zero_ok), B64, M1, P64, P32; nra).
  destruct (add_ok (f64_of_Z w0) m F0 FM1) as [S1 FS1].
  { rewrite A0; apply (range_between _ _ _ H2). }
  rewrite A0 in S1; set (s := f64_add (f64_of_Z w0) m) in *.
  pose proof (rnd_between _ _ _ H2) as H3; rewrite <- S1, (proj1 zero_ok), B64 in H3.
  destruct (f64_of_Z_correct 1 ltac:(lia)) as (A2 & F2 & _).
  assert (H4 : (B2R #0 <= B2R s / bpow radix2 64 <= B2R #1)%R).
  { rewrite (proj1 zero_ok), A2; pose proof (bpow_gt_0 radix2 64); split; [apply Rmult_le_pos; [lra|left; apply Rinv_0_lt_compat; lra]|].
    apply (Rmult_le_reg_r (bpow radix2 64)); [lra|]; unfold Rdiv; rewrite Rmult_assoc, Rinv_l by lra; lra. }
  destruct (div_ok s (f64_of_Z (2 ^ 64)) FS1) as [D1 FD1].
  { rewrite B64; apply Rgt_not_eq, bpow_gt_0. }
  { rewrite B64; apply (range_between _ _ _ H4). }
  rewrite B64 in D1; pose proof (rnd_between _ _ _ H4) as H5; rewrite <- D1, (proj1 zero_ok), A2 in H5.
  set (r := f64_div s (f64_of_Z (2 ^ 64))) in *.
  destruct (Bleb (f64_of_Z 1) r) eqn:El; eexists; eexists; (split; [reflexivity|split; [exact G2|]]).
  - apply below_one_ok.
  - split; [exact FD1|]; split; [lra|]; apply Rnot_le_lt; intros X; assert (Bleb (f64_of_Z 1) r = true); [|congruence].
    apply le_ok; [exact F2|exact FD1|]; rewrite A2; exact X.
Qed.

(** *** The words of mt19937 *)
Lemma word_bits w : is_word w <-> 0 <= w /\ forall n, 32 <= n -> Z.testbit w n = false.
Proof.
  unfold is_word; split; intros [H1 H2]; (split; [exact H1|]).
  - intros n Hn; destruct (Z.eq_dec w 0) as [->|]; [apply Z.bits_0|]; apply Z.bits_above_log2; [lia|]; apply Z.lt_le_trans with 32; [apply Z.log2_lt_pow2; lia|lia].
  - destruct (Z.eq_dec w 0) as [->|]; [lia|]; apply Z.log2_lt_pow2; [lia|]; apply Z.nle_gt; intros Hl.
    pose proof (Z.bit_log2 w ltac:(lia)) as B; rewrite (H2 _ Hl) in B; discriminate B.
Qed.
Lemma word_lxor a b : is_word a -> is_word b -> is_word (Z.lxor a b).
Proof. rewrite !word_bits; intros [A1 A2] [B1 B2]; split; [apply Z.lxor_nonneg; tauto|]; intros n Hn; rewrite Z.lxor_spec, A2, B2 by exact Hn; reflexivity. Qed.
Lemma word_lor a b : is_word a -> is_word b -> is_word (Z.lor a b).
Proof. rewrite !word_bits; intros [A1 A2] [B1 B2]; split; [apply Z.lor_nonneg; tauto|]; intros n Hn; rewrite Z.lor_spec, A2, B2 by exact Hn; reflexivity. Qed.
Lemma word_land a b : is_word a -> is_word b -> is_word (Z.land a b).
Proof. rewrite !word_bits; intros [A1 A2] [B1 B2]; split; [apply Z.land_nonneg; tauto|]; intros n Hn; rewrite Z.land_spec, A2 by exact Hn; reflexivity. Qed.
Lemma word_shiftr a n : 0 <= n -> is_word a -> is_word (Z.shiftr a n).
Proof.
  intros Hn; rewrite !word_bits; intros [A1 A2]; split; [apply Z.shiftr_nonneg; exact A1|]; intros m Hm; rewrite Z.shiftr_spec by lia; apply A2; lia.
Qed.
Lemma word_u32 a : is_word (u32 a).
Proof. unfold is_word, u32, two32; apply Z.mod_pos_bound; lia. Qed.
Ltac word_const := unfold is_word; lia.

Lemma mt_fill_words n : forall x i, is_word x -> Forall is_word (mt_fill x i n).
Proof. induction n as [|n IH]; intros x i Hx; cbn [mt_fill]; constructor; [exact Hx|]; apply IH, word_u32. Qed.
Lemma mt_twist_word x y z : is_word x -> is_word y -> is_word z -> is_word (mt_twist x y z).
Proof.
  intros Hx Hy Hz; unfold mt_twist.
  assert (W : is_word (Z.lor (Z.land x 2147483648) (Z.land y 2147483647))) by (apply word_lor; apply word_land; assumption || word_const).
  apply word_lxor; [apply word_lxor; [exact Hz|apply word_shiftr; [lia|exact W]]|destruct (Z.odd _); word_const].
Qed.
Lemma twist3_words a : forall b c, Forall is_word a -> Forall is_word b -> Forall is_word c -> Forall is_word (twist3 a b c).
Proof.
  induction a as [|x a IH]; intros b c Ha Hb Hc; cbn [twist3]; [constructor|]; destruct b as [|y b]; [constructor|]; destruct c as [|z c]; [constructor|].
  apply Forall_cons_iff in Ha as [Ha1 Ha], Hb as [Hb1 Hb], Hc as [Hc1 Hc]; constructor; [apply mt_twist_word; assumption|apply IH; assumption].
Qed.
Lemma words_firstn n l : Forall is_word l -> Forall is_word (firstn n l).
Proof. intros H; rewrite <- (firstn_skipn n l) in H; apply Forall_app in H; apply H. Qed.
Lemma words_skipn n l : Forall is_word l -> Forall is_word (skipn n l).
Proof. intros H; rewrite <- (firstn_skipn n l) in H; apply Forall_app in H; apply H. Qed.
Lemma mt_next_words x : Forall is_word x -> Forall is_word (mt_next x).
Proof.
  intros H; unfold mt_next.
  assert (B1 : Forall is_word (twist3 (firstn 227 x) (skipn 1 x) (skipn 397 x))) by (apply twist3_words; first [apply words_firstn|apply words_skipn]; exact H).
  set (b1 := twist3 (firstn 227 x) (skipn 1 x) (skipn 397 x)) in *.
  assert (B2 : Forall is_word (twist3 (firstn 227 (skipn 227 x)) (skipn 228 x) b1)) by (apply twist3_words; [apply words_firstn, words_skipn|apply words_skipn|]; assumption).
  set (b2 := twist3 (firstn 227 (skipn 227 x)) (skipn 228 x) b1) in *.
  assert (B3 : Forall is_word (twist3 (firstn 169 (skipn 454 x)) (skipn 455 x) b2)) by (apply twist3_words; [apply words_firstn, words_skipn|apply words_skipn|]; assumption).
  set (b3 := twist3 (firstn 169 (skipn 454 x)) (skipn 455 x) b2) in *.
  assert (N : Forall is_word (b1 ++ b2 ++ b3)) by (apply Forall_app; split; [exact B1|apply Forall_app; split; assumption]).
  apply Forall_app; split; [exact N|]; apply twist3_words; [apply words_skipn; exact H|exact N|apply words_skipn; exact N].
Qed.
Lemma mt_temper_word z : is_word z -> is_word (mt_temper z).
Proof.
  intros H; unfold mt_temper; cbv zeta.
  repeat first [apply word_shiftr; [lia|] | apply word_lxor | apply word_land | apply word_u32 | exact H | word_const].
Qed.
Definition mt_good (g : mt) : Prop := Forall is_word (mt_block g) /\ Forall is_word (mt_rest g).
Lemma mt_word_good g : mt_good g -> is_word (fst (mt_word g)) /\ mt_good (snd (mt_word g)).
Proof.
  intros [Hb Hr]; unfold mt_word.
  destruct (mt_rest g) as [|z r] eqn:E.
  - pose proof (mt_next_words _ Hb) as N; destruct (mt_next (mt_block g)) as [|z r]; cbn [fst snd].
    + split; [word_const|split; constructor].
    + split; [apply mt_temper_word; inversion N; assumption|]; split; cbn [mt_block mt_rest]; [exact N|inversion N; assumption].
  - cbn [fst snd]; apply Forall_cons_iff in Hr as [Hz Hr]; split; [apply mt_temper_word; exact Hz|split; assumption].
Qed.
Lemma mt_seed_good seed : mt_good (mt_seed seed).
Proof. split; [apply mt_fill_words, word_u32|constructor]. Qed.

(** *** Together *)
Lemma draws_exist {St T} (dr : M St T) (good : St -> Prop) (P : T -> Prop) :
  (forall st, good st -> exists x st', dr st = (Ok x, st') /\ good st' /\ P x) ->
  forall n st, good st -> exists xs st', length xs = n /\ draws dr st xs st' /\ good st' /\ Forall P xs.
Proof.
  intros Hd; induction n as [|n IH]; intros st Hg; [exists [], st; repeat split; try constructor; exact Hg|].
  destruct (Hd st Hg) as (x & s1 & E & G1 & Px); destruct (IH s1 G1) as (xs & s2 & L & D & G2 & F).
  exists (x :: xs), s2; split; [cbn; lia|]; split; [econstructor; eassumption|]; split; [exact G2|constructor; assumption].
Qed.
Lemma chunks {T} (k : nat) : forall n (xs : list T), length xs = (n * k)%nat -> exists rows, concat rows = xs /\ length rows = n /\ Forall (fun r => length r = k) rows.
Proof.
  induction n as [|n IH]; intros xs H; [exists []; destruct xs; [auto|discriminate H]|].
  destruct (IH (skipn k xs)) as (rows & E & L & F); [rewrite skipn_length; cbn in H; lia|].
  exists (firstn k xs :: rows); split; [cbn [concat]; rewrite E; apply firstn_skipn|]; split; [cbn; lia|constructor; [rewrite firstn_length; cbn in H; lia|exact F]].
Qed.

(** C102: for every seed, every component of every item is between the bounds *)
Theorem C102_random L count itemSize min max seed :
  is_finite min = true -> is_finite max = true -> is_finite (f64_sub max min) = true -> (B2R min <= B2R max)%R ->
  0 <= itemSize < 2147483648 -> 0 <= count < 4294967296 -> itemSize * count < 4294967296 ->
  exists rows, random_serie L count itemSize min max seed = Ok (mk itemSize rows 3) /\ repr (mk itemSize rows 3) itemSize rows /\ len rows = count /\ Forall (Forall (within min max)) rows.
Proof.
  intros Fa Fb Fd Hab Hk Hn Hm; unfold random_serie.
  set (dr := uniform (H := f64_num L) (Random.canonical mt_word) min max).
  assert (Hdr : forall st, mt_good st -> exists x st', dr st = (Ok x, st') /\ mt_good st' /\ within min max x).
  { intros st Hg; destruct (C102_canonical mt_word mt_good mt_word_good st Hg) as (c & st' & Ec & G & Fc & Rc).
    destruct (C102_uniform L (Random.canonical mt_word) min max c st st' Fa Fb Fd Hab Ec Fc Rc) as (x & Ex & Wx); exists x, st'; auto. }
  destruct (draws_exist dr mt_good _ Hdr (Z.to_nat count * Z.to_nat itemSize) (mt_seed seed) (mt_seed_good seed)) as (xs & st' & Lx & D & _ & F).
  destruct (chunks _ _ _ Lx) as (rows & E & Lr & R); subst xs.
  assert (Lr' : len rows = count) by (unfold len; lia).
  assert (R' : rows_of_size itemSize rows) by (eapply Forall_impl; [|exact R]; intros r Hr; cbn beta in Hr; unfold len; lia).
  exists rows; split; [|split; [apply repr_mk; try assumption; lia|split; [exact Lr'|]]].
  - rewrite <- Lr'; rewrite (C102_fills dr itemSize rows (mt_seed seed) st'); try assumption; try (rewrite Lr'; lia); reflexivity.
  - clear - F; induction rows as [|r rows IH]; [constructor|]; cbn [concat] in F; apply Forall_app in F as [F1 F2]; constructor; [exact F1|apply IH, F2].
Qed.
Print Assumptions C102_fills.
Print Assumptions C102_overflow.
Print Assumptions C102_item_size_throws.
Print Assumptions C102_random.

(** the bounds alone do not suffice: when their difference overflows, no value at all is a finite number *)
Theorem C102_wide_range L count itemSize min max seed :
  is_finite min = true -> is_finite max = true -> is_finite (f64_sub max min) = false ->
  0 <= itemSize < 2147483648 -> 0 <= count < 4294967296 -> itemSize * count < 4294967296 ->
  exists rows, random_serie L count itemSize min max seed = Ok (mk itemSize rows 3) /\ rows_of_size itemSize rows /\ len rows = count /\ Forall (Forall (fun x => is_finite x = false)) rows.
Proof.
  intros Fa Fb Fd Hk Hn Hm; unfold random_serie.
  set (dr := uniform (H := f64_num L) (Random.canonical mt_word) min max).
  assert (Hdr : forall st, mt_good st -> exists x st', dr st = (Ok x, st') /\ mt_good st' /\ is_finite x = false).
  { intros st Hg; destruct (C102_canonical mt_word mt_good mt_word_good st Hg) as (c & st' & Ec & G & Fc & Rc).
    unfold dr, uniform, mbind; rewrite Ec; unfold ret; cbn [n_add n_sub n_mul f64_num]; eexists; exists st'; split; [reflexivity|split; [exact G|]].
    assert (N : is_finite (f64_mul c (f64_sub max min)) = false).
    { destruct (f64_sub max min) as [ | | | ]; try discriminate Fd; destruct c as [ | | | ]; try discriminate Fc; reflexivity. }
    destruct (f64_mul c (f64_sub max min)) as [ | | | ]; try discriminate N; destruct min as [ | | | ]; try discriminate Fa; reflexivity. }
  destruct (draws_exist dr mt_good _ Hdr (Z.to_nat count * Z.to_nat itemSize) (mt_seed seed) (mt_seed_good seed)) as (xs & st' & Lx & D & _ & F).
  destruct (chunks _ _ _ Lx) as (rows & E & Lr & R); subst xs.
  assert (Lr' : len rows = count) by (unfold len; lia).
  assert (R' : rows_of_size itemSize rows) by (eapply Forall_impl; [|exact R]; intros r Hr; cbn beta in Hr; unfold len; lia).
  exists rows; split; [|split; [exact R'|split; [exact Lr'|]]].
  - rewrite <- Lr'; rewrite (C102_fills dr itemSize rows (mt_seed seed) st'); try assumption; try (rewrite Lr'; lia); reflexivity.
  - clear - F; induction rows as [|r rows IH]; [constructor|]; cbn [concat] in F; apply Forall_app in F as [F1 F2]; constructor; [exact F1|apply IH, F2].
Qed.
Print Assumptions C102_wide_range.
Definition dbl_max : F64 := f64_mul (f64_of_Z (2 ^ 53 - 1)) (f64_of_Z (2 ^ 971)).
Theorem C102_refuted : exists (min max : F64), is_finite min = true /\ is_finite max = true /\ (B2R min <= B2R max)%R /\
  (forall L seed, exists x, random_serie L 1 1 min max seed = Ok (mk 1 [[x]] 3) /\ ~ within min max x).
Proof.
  exists (Bopp dbl_max), dbl_max.
  assert (F : is_finite dbl_max = true) by (vm_compute; reflexivity).
  assert (Bltb #0 dbl_max = true) by (vm_compute; reflexivity).
  split; [rewrite is_finite_Bopp; exact F|]; split; [exact F|]; split.
  - apply lt_ok in H; [|reflexivity|exact F]; rewrite (proj1 zero_ok) in H; rewrite B2R_Bopp; lra.
  - intros L seed; destruct (C102_wide_range L 1 1 (Bopp dbl_max) dbl_max seed) as (rows & E & R & Lr & NF); try lia; try (rewrite is_finite_Bopp; exact F); try exact F; [vm_compute; reflexivity|].
    destruct rows as [|r [|]]; unfold len in Lr; cbn [length] in Lr; try lia.
    apply Forall_cons_iff in R as [R _]; apply Forall_cons_iff in NF as [NF _]; destruct r as [|x [|]]; unfold len in R; cbn [length] in R; try lia.
    exists x; split; [exact E|]; intros [W _]; apply Forall_cons_iff in NF as [NF _]; rewrite NF in W; discriminate W.
Qed.
Print Assumptions C102_refuted.

(** The generator is the one of the C++ standard: its 10000th value is 4123659995 ([rand.predef]) *)
Fixpoint skip_words (n : nat) (g : mt) : mt := match n with O => g | S n => skip_words n (snd (mt_word g)) end.
Example C102_standard : fst (mt_word (skip_words (Z.to_nat 9999) (mt_seed 5489))) = 4123659995.
Proof. vm_compute; reflexivity. Qed.
(** two items of size 2: the values in the order of the draws *)
Example C102_example : fst (random (H := (f64_num libm0)) (fun n : Z => (Ok #n, n + 1)) 2 2 5) = Ok (mk 2 [[#5; #6]; [#7; #8]] 3).
Proof.

  change 2 with (len [[#5; #6]; [#7; #8]]) at 1.
  rewrite (C102_fills (NT := f64_num libm0) (fun n : Z => (Ok #n, n + 1)) 2 [[#5; #6]; [#7; #8]] 5 9); [reflexivity|lia| | | |]; try (unfold len; cbn [length]; lia).
  - repeat constructor.
  - cbn [concat app]; repeat (eapply draws_cons; [reflexivity|]); constructor.
Qed.
Example C102_bounds_example : exists rows, random_serie libm0 3 2 #(-1) #1 42 = Ok (mk 2 rows 3) /\ len rows = 3 /\ Forall (Forall (within #(-1) #1)) rows.
Proof.
  destruct (f64_of_Z_correct 1 ltac:(lia)) as (A & FA & _); destruct (f64_of_Z_correct (-1) ltac:(lia)) as (B & FB & _).
  destruct (C102_random libm0 3 2 #(-1) #1 42) as (rows & E & _ & L & F); try assumption; try lia; [rewrite A, B; lra|exists rows; auto].
Qed.
