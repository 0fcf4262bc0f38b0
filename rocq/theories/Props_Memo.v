(** * C46, C47: memoize. *)
From Verif Require Import Base Num Serie Spec BaseFacts SerieFacts Functional FunctionalFacts Utils UtilsFacts
  F64 F64Facts OrderFacts Exec Props_Functional.
From Coq Require Import Reals Lra.
From Flocq Require Import Core IEEE754.BinarySingleNaN.
Open Scope Z_scope.

Ltac Zify.zify_post_hook ::= Z.div_mod_to_equations.
Opaque f64_of_Z.
#[local] Existing Instance F64N.

(** ** histories: calls and cache clearings, one after the other *)
Inductive op (T : Type) : Type := Call (s : Serie T) | Clear.
Arguments Call {T} s.
Arguments Clear {T}.

(** the outcomes of the calls, and the final state *)
Fixpoint play {T} {NT : Num T} {St} (f : Serie T -> M St (Serie T)) (ops : list (op T)) (stc : St * Cache (T := T)) :
  list (outcome (Serie T)) * (St * Cache (T := T)) :=
  match ops with
  | [] => ([], stc)
  | Clear :: r => play f r (memo_clear stc)
  | Call s :: r => let (o, stc1) := memo_call f s stc in let (os, stc2) := play f r stc1 in (o :: os, stc2)
  end.

Definition args_of {T} (ops : list (op T)) : list (Serie T) :=
  flat_map (fun o => match o with Call s => [s] | Clear => [] end) ops.

(** same outcome, except possibly for the dimension *)
Definition same_serie {T} (a b : Serie T) : Prop :=
  s_ a = s_ b /\ count_ a = count_ b /\ itemSize_ a = itemSize_ b.
Definition same_outcome {T} (a b : outcome (Serie T)) : Prop :=
  match a, b with
  | Ok x, Ok y => same_serie x y
  | Throw e, Throw e' => e = e'
  | UB, UB => True
  | _, _ => False
  end.

Section Memo.
  Context {T : Type} {NT : Num T}.

  Lemma make_key_repr (s : Serie T) k rows : repr s k rows -> make_key s = Ok (concat rows).
  Proof.
    intros Hs; unfold make_key; rewrite (repr_count _ _ _ Hs), (repr_itemSize _ _ _ Hs), iota_len.
    assert (G : forall done todo, rows = done ++ todo ->
      foldO (fun key i => if k =? 1 then let* x := get_double s i in Ok (key ++ [x])
                          else let* v := get_array s i in Ok (key ++ v))
            (seqZ (length done) (length todo)) (concat done) = Ok (concat rows)).
    { intros done todo; revert done; induction todo as [|r todo IH]; intros done E.
      - rewrite app_nil_r in E; subst; reflexivity.
      - cbn [length]; rewrite seqZ_S; cbn [foldO].
        assert (Hr : nth_error rows (length done) = Some r) by (rewrite E, nth_error_app2, Nat.sub_diag by lia; reflexivity).
        assert (E1 : (if k =? 1 then let* x := get_double s (Z.of_nat (length done)) in Ok (concat done ++ [x])
                      else let* v := get_array s (Z.of_nat (length done)) in Ok (concat done ++ v)) = Ok (concat (done ++ [r]))).
        { rewrite concat_app; simpl; rewrite app_nil_r.
          destruct (Z.eqb_spec k 1) as [->|Hk].
          - pose proof (rows_size1_col rows (repr_rows _ _ _ Hs)) as Ec.
            pose proof Hs as Hs'; rewrite Ec in Hs', Hr.
            unfold col in Hr; rewrite nth_error_map in Hr; destruct (nth_error (concat rows) (length done)) as [x|] eqn:Ex; [|discriminate].
            injection Hr as <-.
            rewrite (repr_nth_scalar s (concat rows) Hs' (length done) x Ex : get_double s (Z.of_nat (length done)) = Ok x); reflexivity.
          - rewrite (repr_nth s k rows Hs (length done) r Hr : get_array s (Z.of_nat (length done)) = Ok r); reflexivity. }
        rewrite E1; cbn [obind].
        specialize (IH (done ++ [r])); rewrite app_length, Nat.add_1_r in IH.
        apply IH; rewrite E, <- app_assoc; reflexivity. }
    exact (G [] rows eq_refl).
  Qed.

  Lemma find_app_some {A} (p : A -> bool) l r x : find p l = Some x -> find p (l ++ r) = Some x.
  Proof. induction l as [|y l IH]; simpl; [discriminate|]; destruct (p y); auto. Qed.

  Lemma memo_cache_grows {St} (f : Serie T -> M St (Serie T)) s stc o stc1 :
    memo_call f s stc = (o, stc1) -> exists more, snd stc1 = snd stc ++ more.
  Proof.
    unfold memo_call; destruct stc as [st c]; cbn [fst snd].
    destruct (make_key s) as [key| |]; try (intros E; injection E as <- <-; exists []; simpl; rewrite app_nil_r; reflexivity).
    destruct (swo_on klt (key :: map fst c)); [|intros E; injection E as <- <-; exists []; simpl; rewrite app_nil_r; reflexivity].
    destruct (cache_find key c); [intros E; injection E as <- <-; exists []; simpl; rewrite app_nil_r; reflexivity|].
    destruct (f s st) as [[r|e|] st']; intros E; injection E as <- <-; cbn [snd];
      [eexists; reflexivity|exists []; rewrite app_nil_r; reflexivity|exists []; rewrite app_nil_r; reflexivity].
  Qed.

  Lemma play_grows {St} (f : Serie T -> M St (Serie T)) ops : forall stc,
    ~ In Clear ops -> exists more, snd (snd (play f ops stc)) = snd stc ++ more.
  Proof.
    induction ops as [|[s|] ops IH]; intros stc Hn; simpl.
    - exists []; rewrite app_nil_r; reflexivity.
    - destruct (memo_call f s stc) as [o stc1] eqn:Hc.
      destruct (memo_cache_grows f s stc o stc1 Hc) as [m1 E1].
      destruct (IH stc1) as [m2 E2]; [intros Hin; apply Hn; right; exact Hin|].
      destruct (play f ops stc1) as [os stc2]; simpl in *.
      exists (m1 ++ m2); rewrite E2, E1, app_assoc; reflexivity.
    - exfalso; apply Hn; left; reflexivity.
  Qed.
End Memo.

(** ** C47 *)

(** Once a call has returned, every later call with equal contents is answered from the cache, as long as it is not cleared:
    neither the function nor its state matters any more. *)
Theorem C47_once_per_key :
  forall (T : Type) (NT : Num T) (St : Type) (f : Serie T -> M St (Serie T)) s k rows stc r stc1 ops s' k' rows',
  repr s k rows -> repr s' k' rows' -> concat rows = concat rows' ->
  memo_call f s stc = (Ok r, stc1) -> ~ In Clear ops ->
  let stc2 := snd (play f ops stc1) in
  fst (memo_call f s' stc2) <> UB ->
  exists r', same_serie r r' /\
    forall (g : Serie T -> M St (Serie T)), memo_call g s' stc2 = (Ok r', stc2).
Proof.
  intros T NT St f s k rows stc r stc1 ops s' k' rows' Hs Hs' Erows Hc Hn stc2 Hub.
  set (key := concat rows).
  assert (Hk : make_key s = Ok key) by (apply (make_key_repr s k rows Hs)).
  assert (Hk' : make_key s' = Ok key) by (unfold key; rewrite Erows; apply (make_key_repr s' k' rows' Hs')).
  destruct (play_grows f ops stc1 Hn) as [more Em]; fold stc2 in Em.
  assert (Hw : swo_on klt (key :: map fst (snd stc2)) = true).
  { unfold memo_call in Hub; rewrite Hk' in Hub; destruct (swo_on klt (key :: map fst (snd stc2))); [reflexivity|].
    exfalso; apply Hub; reflexivity. }
  clear Hub; clearbody stc2; destruct stc2 as [st2 c2]; simpl in Em, Hw.
  unfold memo_call in Hc; rewrite Hk in Hc; destruct stc as [st c]; cbn [fst snd] in Hc.
  destruct (swo_on klt (key :: map fst c)) eqn:Ew; [|discriminate].
  assert (Eself : kequiv key key = true).
  { apply swo_on_spec in Hw; destruct Hw as (Hi & _ & _); unfold kequiv, incomparable.
    rewrite (Hi key (or_introl eq_refl)); reflexivity. }
  assert (Ef : exists v, cache_find key (snd stc1) = Some v /\ same_serie r v).
  { destruct (cache_find key c) as [v|] eqn:Ec.
    - injection Hc as <- <-; exists v; split; [exact Ec|repeat split].
    - destruct (f s st) as [[q|e|] st'] eqn:Eq; try discriminate; injection Hc as <- <-; cbn [snd].
      exists (serie_assign serie_default q); split; [|repeat split].
      unfold cache_find in *.
      destruct (find (fun e => kequiv key (fst e)) c) eqn:E0; [discriminate|].
      replace (find (fun e => kequiv key (fst e)) (c ++ [(key, serie_assign serie_default q)]))
        with (Some (key, serie_assign serie_default q)); [reflexivity|].
      symmetry; clear -E0 Eself; induction c as [|e c IH]; simpl in *; [rewrite Eself; reflexivity|].
      destruct (kequiv key (fst e)); [discriminate|apply IH; exact E0]. }
  destruct Ef as (v & Ef & Hsame); exists (serie_copy v); split; [destruct Hsame as (? & ? & ?); repeat split; assumption|].
  intros g; unfold memo_call; rewrite Hk'; cbn [fst snd]; rewrite Hw.
  assert (Ef2 : cache_find key c2 = Some v).
  { unfold cache_find in *; rewrite Em.
    destruct (find (fun e => kequiv key (fst e)) (snd stc1)) eqn:E0; [|discriminate].
    rewrite (find_app_some _ _ more _ E0); exact Ef. }
  rewrite Ef2; reflexivity.
Qed.
Print Assumptions C47_once_per_key.

(** after clear_cache the function runs again *)
Theorem C47_clear :
  forall (T : Type) (NT : Num T) (St : Type) (f : Serie T -> M St (Serie T)) s stc key,
  make_key s = Ok key -> swo_on klt [key] = true ->
  fst (memo_call f s (memo_clear stc)) = fst (f s (fst stc)) /\
  fst (snd (memo_call f s (memo_clear stc))) = snd (f s (fst stc)).
Proof.
  intros T NT St f s [st c] key Hk Hw; unfold memo_call, memo_clear; cbn [fst snd map].
  rewrite Hk, Hw; simpl; destruct (f s st) as [[r|e|] st']; split; reflexivity.
Qed.
Print Assumptions C47_clear.

(** a call that throws leaves the cache as it was *)
Theorem C47_throw_stores_nothing :
  forall (T : Type) (NT : Num T) (St : Type) (f : Serie T -> M St (Serie T)) s stc e stc',
  memo_call f s stc = (Throw e, stc') -> snd stc' = snd stc.
Proof.
  intros T NT St f s [st c] e stc'; unfold memo_call; cbn [fst snd].
  destruct (make_key s) as [key| |]; try discriminate; [|intros E; injection E as <- <-; reflexivity].
  destruct (swo_on klt (key :: map fst c)); [|discriminate].
  destruct (cache_find key c); [discriminate|].
  destruct (f s st) as [[r|e'|] st']; try discriminate; intros E; injection E as <- <-; reflexivity.
Qed.
Print Assumptions C47_throw_stores_nothing.

(** literals that carry no proof, so that examples compute *)
Notation zero := (B754_zero false : F64).
Notation inf := (B754_infinity false : F64).

Example C47_witness :
  let f := fun (s : Serie F64) (n : Z) => (Ok s, n + 1) in
  let a := mk 1 (col [zero; inf]) 3 in
  let b := mk 2 [[zero; inf]] 3 in
  memo_call f a (0, []) = (Ok a, (1, [([zero; inf], a)])) /\
  repr a 1 (col [zero; inf]) /\ repr b 2 [[zero; inf]] /\
  (* [b] has the same contents and is answered from the cache; another Serie is not *)
  play f [Call b; Call (mk 1 (col [inf]) 3); Call a] (1, [([zero; inf], a)])
    = ([Ok a; Ok (mk 1 (col [inf]) 3); Ok a], (2, [([zero; inf], a); ([inf], mk 1 (col [inf]) 3)])) /\
  (* after clearing, [f] runs again *)
  fst (snd (play f [Clear; Call a] (1, [([zero; inf], a)]))) = 2.
Proof.
  split; [vm_compute; reflexivity|]; split; [repr_ex|]; split; [repr_ex|]; split; vm_compute; reflexivity.
Qed.

(** ** C46 *)

(** The contents are the only part of an argument that the cache sees: it is not transparent. *)
Theorem C46_transparent_refuted :
  (* identity on a Serie of another shape *)
  (exists (a b : Serie F64), let f := fun s : Serie F64 => ret (St := unit) s in
     exists stc r, memo_call f a (tt, []) = (Ok a, stc) /\ fst (memo_call f b stc) = Ok r /\ itemSize r <> itemSize b) /\
  (* the dimension of the result is lost on the second call *)
  (exists (a : Serie F64), let f := fun s : Serie F64 => ret (St := unit) s in
     exists stc r, memo_call f a (tt, []) = (Ok a, stc) /\ fst (memo_call f a stc) = Ok r /\ dimension r <> dimension a) /\
  (* +0 and -0 share an entry *)
  (exists (a b : Serie F64), let f := fun s : Serie F64 => ret (St := unit) s in
     exists stc r, memo_call f a (tt, []) = (Ok a, stc) /\ fst (memo_call f b stc) = Ok r /\ s_ r <> s_ b).
Proof.
  split; [|split].
  - exists (mk 1 (col [zero; inf]) 3), (mk 2 [[zero; inf]] 3); simpl.
    do 2 eexists; split; [vm_compute; reflexivity|]; split; [vm_compute; reflexivity|]; discriminate.
  - exists (mk 1 (col [zero; inf]) 2); simpl.
    do 2 eexists; split; [vm_compute; reflexivity|]; split; [vm_compute; reflexivity|]; discriminate.
  - exists (mk 1 (col [B754_zero false]) 3), (mk 1 (col [B754_zero true]) 3); simpl.
    do 2 eexists; split; [vm_compute; reflexivity|]; split; [vm_compute; reflexivity|]; discriminate.
Qed.
Print Assumptions C46_transparent_refuted.

Section C46.
  Context {T : Type} {NT : Num T} (f : Serie T -> outcome (Serie T)) (D : Serie T -> Prop).
  (** arguments of the history: keys can be told apart, and equivalent keys give equal results *)
  Context (HD : forall a b ka kb, D a -> D b -> make_key a = Ok ka -> make_key b = Ok kb -> kequiv ka kb = true ->
                same_outcome (f a) (f b)).
  Context (HK : forall a, D a -> exists k, make_key a = Ok k).
  Context (HW : forall ks, Forall (fun k => exists a, D a /\ make_key a = Ok k) ks -> swo_on klt ks = true).

  Definition cache_ok (c : Cache (T := T)) : Prop :=
    Forall (fun e => exists a r, D a /\ make_key a = Ok (fst e) /\ f a = Ok r /\ same_serie r (snd e)) c.

  Lemma same_serie_trans (a b c : Serie T) : same_serie a b -> same_serie b c -> same_serie a c.
  Proof. intros (A1 & A2 & A3) (B1 & B2 & B3); repeat split; congruence. Qed.
  Lemma same_serie_sym (a b : Serie T) : same_serie a b -> same_serie b a.
  Proof. intros (A1 & A2 & A3); repeat split; congruence. Qed.

  Lemma memo_call_ok s st c : D s -> cache_ok c ->
    let r := memo_call (St := unit) (fun s => lift (f s)) s (st, c) in
    same_outcome (f s) (fst r) /\ cache_ok (snd (snd r)).
  Proof.
    intros Hs Hc; destruct (HK s Hs) as (k & Hk); unfold memo_call; rewrite Hk; cbn [fst snd].
    rewrite (HW (k :: map fst c)).
    2:{ constructor; [exists s; auto|]. unfold cache_ok in Hc; clear -Hc.
        induction Hc as [|e c (a & r & Ha & Hka & _) Hc IH]; simpl; constructor; [exists a; auto|exact IH]. }
    unfold cache_find; destruct (find (fun e => kequiv k (fst e)) c) as [[k' v]|] eqn:Ef; simpl.
    - split; [|exact Hc].
      apply find_some in Ef; destruct Ef as [Hin He]; simpl in He.
      unfold cache_ok in Hc; rewrite Forall_forall in Hc; destruct (Hc _ Hin) as (a & r & Ha & Hka & Hfa & Hra); simpl in *.
      pose proof (HD s a k k' Hs Ha Hk Hka He) as Hsame; rewrite Hfa in Hsame.
      destruct (f s) as [q|e|]; simpl in *; try contradiction.
      eapply same_serie_trans; [exact Hsame|]; eapply same_serie_trans; [exact Hra|repeat split].
    - unfold lift; destruct (f s) as [q|e|] eqn:Efs; cbn [fst snd].
      + split; [repeat split|]; apply Forall_app; split; [exact Hc|constructor; [|constructor]].
        exists s, q; simpl; split; [exact Hs|]; split; [exact Hk|]; split; [exact Efs|repeat split].
      + split; [reflexivity|exact Hc].
      + split; [exact I|exact Hc].
  Qed.

  Lemma play_ok ops : forall st c, Forall D (args_of ops) -> cache_ok c ->
    Forall2 same_outcome (map f (args_of ops)) (fst (play (St := unit) (fun s => lift (f s)) ops (st, c))).
  Proof.
    induction ops as [|[s|] ops IH]; intros st c HDs Hc; simpl in *.
    - constructor.
    - inversion HDs as [|? ? Hs HDs']; subst.
      destruct (memo_call_ok s st c Hs Hc) as [A B].
      destruct (memo_call (fun s => lift (f s)) s (st, c)) as [o [st1 c1]]; simpl in A, B.
      specialize (IH st1 c1 HDs' B); destruct (play (fun s => lift (f s)) ops (st1, c1)) as [os stc2]; simpl in *.
      constructor; assumption.
    - unfold memo_clear; simpl; apply IH; [exact HDs|constructor].
  Qed.
End C46.

(** doubles for which [==] is equality *)
Definition plain (x : F64) : Prop := not_nan x /\ x <> B754_zero true.

Lemma plain_eq x y : plain x -> plain y -> ext x = ext y -> x = y.
Proof.
  intros [Hx Zx] [Hy Zy] E.
  assert (P : (0 < bpow radix2 1024)%R) by apply bpow_gt_0.
  destruct (is_finite x) eqn:Fx, (is_finite y) eqn:Fy.
  - rewrite (ext_finite x Fx), (ext_finite y Fy) in E.
    destruct (Req_dec (B2R x) 0) as [E0|E0].
    + assert (Ez : forall z : F64, is_finite z = true -> B2R z = 0%R -> z <> B754_zero true -> z = B754_zero false).
      { intros [[]| | |s m e p] Fz Bz Nz; try discriminate; try congruence.
        exfalso; simpl in Bz; apply (F2R_neq_0 radix2 (Float radix2 (SpecFloat.cond_Zopp s (Zpos m)) e)) in Bz; [exact Bz|destruct s; discriminate]. }
      rewrite (Ez x), (Ez y); auto; congruence.
    + assert (Sx : is_finite_strict x = true).
      { destruct x as [s| | |s m e p]; try discriminate; [exfalso; apply E0; reflexivity|reflexivity]. }
      assert (Sy : is_finite_strict y = true).
      { destruct y as [s| | |s m e p]; try discriminate; [exfalso; apply E0; rewrite E; reflexivity|reflexivity]. }
      apply B2R_inj; assumption.
  - pose proof (ext_bound x Fx) as B; destruct y as [s| [] | |s m e p]; try discriminate; rewrite E in B; cbn [ext] in B; lra.
  - pose proof (ext_bound y Fy) as B; destruct x as [s| [] | |s m e p]; try discriminate; rewrite <- E in B; cbn [ext] in B; lra.
  - destruct x as [s| [] | |s m e p], y as [s'| [] | |s' m' e' p']; try discriminate; auto; cbn [ext] in E; lra.
Qed.

Lemma kequiv_plain L a : forall b, Forall plain a -> Forall plain b -> @kequiv _ (f64_num L) a b = true -> a = b.
Proof.
  unfold kequiv, incomparable.
  induction a as [|x a IH]; intros [|y b] Ha Hb; simpl; intros E; try discriminate; [reflexivity|].
  inversion Ha as [|? ? Px Ha']; inversion Hb as [|? ? Py Hb']; subst.
  assert (X : Beqb y x = Beqb x y).
  { destruct (Beqb x y) eqn:E1; [apply (Beqb_ext x y) in E1|]; try apply Px; try apply Py.
    - apply (Beqb_ext y x); try apply Px; try apply Py; congruence.
    - destruct (Beqb y x) eqn:E2; [|reflexivity]; apply (Beqb_ext y x) in E2; try apply Px; try apply Py.
      symmetry in E2; apply (Beqb_ext x y) in E2; try apply Px; try apply Py; congruence. }
  rewrite X in E; destruct (Beqb x y) eqn:E1.
  - apply (Beqb_ext x y) in E1; try apply Px; try apply Py.
    rewrite (plain_eq x y Px Py E1), (IH b Ha' Hb' E); reflexivity.
  - exfalso; apply andb_prop in E; destruct E as [E2 E3]; apply negb_true_iff in E2, E3.
    destruct (Rtotal_order (ext x) (ext y)) as [Hl|[He|Hl]].
    + apply (Bltb_ext x y) in Hl; try apply Px; try apply Py; congruence.
    + apply (Beqb_ext x y) in He; try apply Px; try apply Py; congruence.
    + apply (Bltb_ext y x) in Hl; try apply Px; try apply Py; congruence.
Qed.

(** [klt] on keys without NaN *)
Inductive lexP : list R -> list R -> Prop :=
| lexP_nil : forall y b, lexP [] (y :: b)
| lexP_here : forall x y a b, (x < y)%R -> lexP (x :: a) (y :: b)
| lexP_later : forall x a b, lexP a b -> lexP (x :: a) (x :: b).

Lemma lexP_irrefl a : ~ lexP a a.
Proof. induction a as [|x a IH]; intros H; inversion H; subst; [lra|apply IH; assumption]. Qed.
Lemma lexP_trans a : forall b c, lexP a b -> lexP b c -> lexP a c.
Proof.
  induction a as [|x a IH]; intros b c H1 H2.
  - inversion H1; subst; inversion H2; subst; apply lexP_nil.
  - inversion H1; subst; inversion H2; subst; try (apply lexP_here; lra); apply lexP_later; eapply IH; eassumption.
Qed.
Lemma lexP_total a : forall b, lexP a b \/ a = b \/ lexP b a.
Proof.
  induction a as [|x a IH]; intros [|y b]; [auto|left; apply lexP_nil|right; right; apply lexP_nil|].
  destruct (Rtotal_order x y) as [H|[->|H]]; [left; apply lexP_here; exact H| |right; right; apply lexP_here; lra].
  destruct (IH b) as [H|[->|H]]; [left; apply lexP_later; exact H|auto|right; right; apply lexP_later; exact H].
Qed.

Lemma klt_lexP L a : forall b, Forall not_nan a -> Forall not_nan b ->
  (@klt _ (f64_num L) a b = true <-> lexP (map ext a) (map ext b)).
Proof.
  induction a as [|x a IH]; intros [|y b] Ha Hb; simpl.
  - split; intros H; [discriminate|inversion H].
  - split; intros; [apply lexP_nil|reflexivity].
  - split; intros H; [discriminate|inversion H].
  - inversion Ha as [|? ? Px Ha']; inversion Hb as [|? ? Py Hb']; subst.
    destruct (Beqb x y) eqn:E; [apply (Beqb_ext x y Px Py) in E|].
    + rewrite (IH b Ha' Hb'), E; split; intros H; [apply lexP_later; exact H|inversion H; subst; [lra|assumption]].
    + rewrite (Bltb_ext x y Px Py); split; intros H; [apply lexP_here; exact H|].
      inversion H; subst; [assumption|].
      match goal with He : ext x = ext y |- _ => apply (Beqb_ext x y Px Py) in He; congruence end.
Qed.

Lemma klt_swo L keys : Forall (Forall not_nan) keys -> swo_on (@klt _ (f64_num L)) keys = true.
Proof.
  intros Hg; rewrite Forall_forall in Hg.
  assert (EF : forall x y, In x keys -> In y keys -> (@klt _ (f64_num L) x y = false <-> ~ lexP (map ext x) (map ext y))).
  { intros x y Hx Hy; rewrite <- (klt_lexP L) by auto; destruct (@klt _ (f64_num L) x y); split; intros; congruence. }
  apply swo_on_spec; split; [|split].
  - intros x Hx; apply EF; auto; apply lexP_irrefl.
  - intros x y z Hx Hy Hz; rewrite !klt_lexP by auto; apply lexP_trans.
  - intros x y z Hx Hy Hz; rewrite !EF by auto; intros H1 H2 H3 H4.
    destruct (lexP_total (map ext x) (map ext y)) as [?|[E1|?]]; try contradiction.
    destruct (lexP_total (map ext y) (map ext z)) as [?|[E2|?]]; try contradiction.
    rewrite E1, E2; split; apply lexP_irrefl.
Qed.

Lemma concat_inj {A} k (a : list (list A)) : forall b, 1 <= k -> rows_of_size k a -> rows_of_size k b ->
  concat a = concat b -> a = b.
Proof.
  unfold rows_of_size; induction a as [|x a IH]; intros [|y b] Hk Ha Hb E; [reflexivity| | |].
  - inversion Hb; subst; destruct y; [unfold len in *; simpl in *; lia|discriminate].
  - inversion Ha; subst; destruct x; [unfold len in *; simpl in *; lia|discriminate].
  - inversion Ha; inversion Hb; subst; simpl in E.
    assert (El : length x = length y) by (unfold len in *; lia).
    assert (x = y /\ concat a = concat b) as [-> E'].
    { clear -E El; revert y El E; induction x as [|u x IHx]; intros [|v y] El E; try discriminate; [auto|].
      simpl in E; injection E as -> E; destruct (IHx y) as [-> ?]; auto. }
    rewrite (IH b); auto.
Qed.

(** a Serie of item size [k >= 1] and dimension [dim] that holds neither NaN nor -0 *)
Definition plain_serie k dim (s : Serie F64) : Prop :=
  1 <= k /\ exists rows, s = mk k rows dim /\ repr s k rows /\ Forall plain (concat rows).

(** On such arguments memoization is transparent: in every history of calls and clearings each call has the outcome of the
    function, up to the dimension of the result *)
Theorem C46_transparent_partial :
  forall (L : Libm) (f : Serie F64 -> outcome (Serie F64)) k dim ops,
  Forall (plain_serie k dim) (args_of ops) ->
  Forall2 same_outcome (map f (args_of ops))
    (fst (play (NT := f64_num L) (St := unit) (fun s => lift (f s)) ops (tt, []))).
Proof.
  intros L f k dim ops Hargs.
  apply (play_ok (NT := f64_num L) f (plain_serie k dim)); [| | |exact Hargs|constructor].
  - intros a b ka kb (Hk & ra & Ea & Ra & Pa) (_ & rb & Eb & Rb & Pb) Hka Hkb He.
    rewrite (make_key_repr a k ra Ra) in Hka; injection Hka as <-.
    rewrite (make_key_repr b k rb Rb) in Hkb; injection Hkb as <-.
    assert (E : ra = rb).
    { apply (concat_inj k); [exact Hk|exact (repr_rows _ _ _ Ra)|exact (repr_rows _ _ _ Rb)|exact (kequiv_plain L _ _ Pa Pb He)]. }
    rewrite Ea, Eb, E; destruct (f (mk k rb dim)); simpl; auto; repeat split.
  - intros a (_ & ra & _ & Ra & _); exists (concat ra); apply (make_key_repr a k ra Ra).
  - intros ks Hks; apply klt_swo; eapply Forall_impl; [|exact Hks].
    intros key (a & (_ & ra & _ & Ra & Pa) & Hka).
    rewrite (make_key_repr a k ra Ra) in Hka; injection Hka as <-.
    eapply Forall_impl; [|exact Pa]; intros x [Hx _]; exact Hx.
Qed.
Print Assumptions C46_transparent_partial.

Example C46_witness :
  Forall (plain_serie 2 3) (args_of [Call (mk 2 [[zero; inf]; [inf; inf]] 3); Clear; Call (mk 2 [[inf; zero]] 3)]).
Proof.
  simpl; constructor; [|constructor; [|constructor]]; split; try lia; eexists; (split; [reflexivity|]); (split; [repr_ex|]);
    simpl; repeat (constructor; [split; [reflexivity|discriminate]|]); constructor.
Qed.

(** A NaN in the argument: with one entry in the cache the call is answered with the result for another argument; with two entries
    the look-up is undefined *)
Theorem C46_nan_refuted :
  exists (a b c : Serie F64), let f := fun s : Serie F64 => ret (St := unit) s in
    fst (play f [Call a; Call c] (tt, [])) = [Ok a; Ok a] /\ s_ c <> s_ a /\
    fst (play f [Call a; Call b; Call c] (tt, [])) = [Ok a; Ok b; UB].
Proof.
  exists (mk 1 (col [zero]) 3), (mk 1 (col [inf]) 3), (mk 1 (col [B754_nan]) 3).
  split; [vm_compute; reflexivity|]; split; [discriminate|vm_compute; reflexivity].
Qed.
Print Assumptions C46_nan_refuted.
