(** * C87, C88: grids of points. *)
From Verif Require Import Base Num Serie Spec BaseFacts SerieFacts Functional Mathf Algebra Geo ViewFacts.
From Verif Require Import RNum Props_Functional.
From Coq Require Import Reals Lra.
Open Scope Z_scope.

(** ** Specification *)
(** number of points in dimension [d]: 1 where none is given *)
Definition pts (npts : list Z) (d : nat) : nat := Z.to_nat (nth d npts 1).
(** [n] values from [a] to [b], equally spaced *)
Definition evenly (n : nat) (a b : R) (X : nat -> R) : Prop :=
  X 0%nat = a /\ X (n - 1)%nat = b /\ forall i, (i + 1 < n)%nat -> (X (i + 1)%nat - X i = (b - a) / INR (n - 1))%R.
(** item [i + n0 (j + n1 k)] has the coordinates [X i], [Y j], [Z k] *)
Definition x_fastest {T} (n0 n1 n2 : nat) (X Y Z : nat -> T) (rows : list (list T)) : Prop :=
  length rows = (n0 * n1 * n2)%nat /\
  forall i j k, (i < n0)%nat -> (j < n1)%nat -> (k < n2)%nat -> nth_error rows (i + n0 * (j + n1 * k)) = Some [X i; Y j; Z k].
Definition good_npts (npts : list Z) : Prop :=
  1 <= len npts <= 3 /\ Forall (fun n => 0 <= n < 4294967296) npts /\ 3 * fold_right Z.mul 1 npts < 4294967296.

(** ** The loops *)
Section Loops.
  Context {T : Type} {NT : Num T}.

  Lemma foldO_flat_map {A B St} (f : St -> B -> outcome St) (g : A -> list B) l : forall st,
    foldO (fun st x => foldO f (g x) st) l st = foldO f (flat_map g l) st.
  Proof.
    induction l as [|x l IH]; intros st; [reflexivity|]; cbn [foldO flat_map]; rewrite foldO_app; destruct (foldO f (g x) st); cbn [obind]; [apply IH|reflexivity|reflexivity].
  Qed.
  Lemma nth_flat_map {A B} (f : A -> list B) m l : (forall x, In x l -> length (f x) = m) -> forall q r x, (r < m)%nat -> nth_error l q = Some x ->
    nth_error (flat_map f l) (r + m * q) = nth_error (f x) r.
  Proof.
    induction l as [|y l IH]; intros Hl q r x Hr Hq; [destruct q; discriminate|]; cbn [flat_map].
    pose proof (Hl y (or_introl eq_refl)) as Ly; destruct q as [|q].
    - injection Hq as ->; rewrite nth_error_app1 by lia; f_equal; lia.
    - rewrite nth_error_app2 by lia; replace (r + m * S q - length (f y))%nat with (r + m * q)%nat by lia; apply IH; [intros; apply Hl; right; assumption|exact Hr|exact Hq].
  Qed.
  Lemma length_flat_map {A B} (f : A -> list B) m l : (forall x, In x l -> length (f x) = m) -> length (flat_map f l) = (m * length l)%nat.
  Proof.
    induction l as [|y l IH]; intros Hl; [cbn; lia|]; cbn [flat_map length]; rewrite app_length, IH, (Hl y (or_introl eq_refl)) by (intros; apply Hl; right; assumption); lia.
  Qed.

  (** the order of the points *)
  Definition cells (n0 n1 n2 : nat) : list (nat * nat * nat) :=
    flat_map (fun k => flat_map (fun j => map (fun i => (i, j, k)) (seq 0 n0)) (seq 0 n1)) (seq 0 n2).
  Lemma cells_length n0 n1 n2 : length (cells n0 n1 n2) = (n0 * n1 * n2)%nat.
  Proof.
    unfold cells; rewrite (length_flat_map _ (n0 * n1)); [rewrite seq_length; reflexivity|].
    intros k _; rewrite (length_flat_map _ n0); [rewrite seq_length; reflexivity|intros; rewrite map_length, seq_length; reflexivity].
  Qed.
  Lemma cells_nth n0 n1 n2 i j k : (i < n0)%nat -> (j < n1)%nat -> (k < n2)%nat -> nth_error (cells n0 n1 n2) (i + n0 * (j + n1 * k)) = Some (i, j, k).
  Proof.
    intros Hi Hj Hk; unfold cells.
    assert (S : forall n q, (q < n)%nat -> nth_error (seq 0 n) q = Some q).
    { intros n q Hq; rewrite (nth_error_nth' _ 0%nat) by (rewrite seq_length; exact Hq); rewrite seq_nth by exact Hq; reflexivity. }
    replace (i + n0 * (j + n1 * k))%nat with ((i + n0 * j) + (n0 * n1) * k)%nat by nia.
    rewrite (nth_flat_map _ (n0 * n1) _) with (x := k).
    - rewrite (nth_flat_map _ n0 _) with (x := j); [rewrite nth_error_map, S by exact Hi; reflexivity|intros; rewrite map_length, seq_length; reflexivity|exact Hi|apply S; exact Hj].
    - intros x _; rewrite (length_flat_map _ n0); [rewrite seq_length; reflexivity|intros; rewrite map_length, seq_length; reflexivity].
    - nia.
    - apply S; exact Hk.
  Qed.

  Lemma fill_index {A} (pt : A -> outcome (list T)) (g : A -> list T) k dim : 0 <= k < 2147483648 -> forall todo (done old : list (list T)),
    (forall c, In c todo -> pt c = Ok (g c) /\ len (g c) = k) -> length old = length todo -> rows_of_size k (done ++ old) ->
    len (done ++ old) < 4294967296 -> k * len (done ++ old) < 4294967296 ->
    exists ix, foldO (fun st c => let* p := pt c in let* r := set_array (fst st) (snd st) p in Ok (r, u32 (snd st + 1))) todo (mk k (done ++ old) dim, len done)
    = Ok (mk k (done ++ map g todo) dim, ix).
  Proof.
    intros Hk; induction todo as [|c todo IH]; intros done old Hp Ho Hr Hn Hm.
    - destruct old; [|discriminate]; eexists; reflexivity.
    - destruct old as [|o old]; [discriminate|]; cbn [foldO].
      destruct (Hp c (or_introl eq_refl)) as [Ec Lc]; rewrite Ec; cbn [obind fst snd].
      pose proof (len_nonneg done); pose proof (len_nonneg old).
      rewrite set_array_mk; [|apply repr_mk; auto|rewrite len_app, len_cons; lia|exact Lc]; cbn [obind].
      replace (Z.to_nat (len done)) with (length done) by (unfold len; lia); rewrite upd_nat_mid.
      rewrite u32_small by (rewrite len_app, len_cons in Hn; lia).
      specialize (IH (done ++ [g c]) old); rewrite <- !app_assoc in IH; cbn [app] in IH.
      replace (len (done ++ [g c])) with (len done + 1) in IH by (rewrite len_app; reflexivity); cbn [map]; apply IH.
      + intros; apply Hp; right; assumption.
      + injection Ho as Ho; exact Ho.
      + apply rows_app in Hr; destruct Hr as [R1 R2]; apply rows_app; split; [exact R1|]; inversion R2; subst; constructor; auto.
      + rewrite !len_app, !len_cons in *; lia.
      + rewrite !len_app, !len_cons in *; lia.
  Qed.

  Lemma fill_grid_ok (n0 n1 n2 : nat) point (X Y Z : nat -> T) dim :
    (forall i j k, (i < n0)%nat -> (j < n1)%nat -> (k < n2)%nat -> point (Z.of_nat i) (Z.of_nat j) (Z.of_nat k) = Ok [X i; Y j; Z k]) ->
    3 * Z.of_nat (n0 * n1 * n2) < 4294967296 ->
    exists rows, fill_grid [Z.of_nat n0; Z.of_nat n1; Z.of_nat n2] point (serie_n 3 (Z.of_nat (n0 * n1 * n2)) dim) = Ok (mk 3 rows dim) /\ x_fastest n0 n1 n2 X Y Z rows.
  Proof.
    intros Hp Hn; unfold fill_grid.
    change (rd [Z.of_nat n0; Z.of_nat n1; Z.of_nat n2] 2) with (Ok (Z.of_nat n2)); change (rd [Z.of_nat n0; Z.of_nat n1; Z.of_nat n2] 1) with (Ok (Z.of_nat n1));
      change (rd [Z.of_nat n0; Z.of_nat n1; Z.of_nat n2] 0) with (Ok (Z.of_nat n0)); cbn [obind].
    set (g := fun c : nat * nat * nat => let '(i, j, k) := c in [X i; Y j; Z k]).
    set (pt := fun c : nat * nat * nat => let '(i, j, k) := c in point (Z.of_nat i) (Z.of_nat j) (Z.of_nat k)).
    exists (map g (cells n0 n1 n2)); split.
    - assert (E : forall st, foldO (fun st k => foldO (fun st j => foldO (fun st i =>
        let* p := point i j k in let* r := set_array (fst st) (snd st) p in Ok (r, u32 (snd st + 1))) (iota (Z.of_nat n0)) st) (iota (Z.of_nat n1)) st) (iota (Z.of_nat n2)) st
        = foldO (fun st c => let* p := pt c in let* r := set_array (fst st) (snd st) p in Ok (r, u32 (snd st + 1))) (cells n0 n1 n2) st).
      { intros st; unfold cells; rewrite <- foldO_flat_map, (iota_nat n2), foldO_map; apply foldO_ext; intros st1 k _.
        rewrite <- foldO_flat_map, (iota_nat n1), foldO_map; apply foldO_ext; intros st2 j _.
        rewrite (iota_nat n0), !foldO_map; reflexivity. }
      rewrite E, serie_n_mk by lia.
      destruct (fill_index pt g 3 dim ltac:(lia) (cells n0 n1 n2) [] (zrows 3 (Z.of_nat (n0 * n1 * n2)))) as (ix & F).
      + intros [[i j] k] Hc; split; [|reflexivity]; unfold cells in Hc.
        apply in_flat_map in Hc; destruct Hc as (k' & Hk & Hc); apply in_flat_map in Hc; destruct Hc as (j' & Hj & Hc); apply in_map_iff in Hc; destruct Hc as (i' & Ei & Hi).
        apply in_seq in Hk, Hj, Hi; injection Ei as -> -> ->; apply Hp; lia.
      + rewrite cells_length; unfold zrows; rewrite repeat_length; lia.
      + cbn [app]; apply rows_zrows; lia.
      + cbn [app]; rewrite len_zrows; lia.
      + cbn [app]; rewrite len_zrows; lia.
      + cbn [app] in F; change (len (@nil (list T))) with 0 in F; rewrite F; reflexivity.
    - split; [rewrite map_length; apply cells_length|]; intros i j k Hi Hj Hk; rewrite nth_error_map, cells_nth by assumption; reflexivity.
  Qed.

  Lemma total_points_ok npts : good_npts npts ->
    total_points npts = Z.of_nat (pts npts 0 * pts npts 1 * pts npts 2) /\ resized npts = [Z.of_nat (pts npts 0); Z.of_nat (pts npts 1); Z.of_nat (pts npts 2)] /\
    3 * Z.of_nat (pts npts 0 * pts npts 1 * pts npts 2) < 4294967296.
  Proof.
    intros (Hl & Hf & Hp).
    assert (U : forall a b, u32 (u32 a * b) = u32 (a * b)) by (intros; unfold u32; rewrite Zmult_mod_idemp_l; reflexivity).
    unfold pts; destruct npts as [|a [|b [|c [|? ?]]]]; cbn [len length] in Hl; unfold len in Hl; cbn [length] in Hl; try lia;
      repeat match goal with H : Forall _ (_ :: _) |- _ => inversion H; subst; clear H end; cbn [nth fold_right] in *; unfold total_points; cbn [fold_left];
      rewrite ?U, <- ?Z.mul_assoc, ?U, !Nat2Z.inj_mul, !Z2Nat.id by lia.
    - rewrite u32_small by lia; split; [lia|split; [reflexivity|lia]].
    - assert (0 <= a * b) by (apply Z.mul_nonneg_nonneg; lia); change (Z.of_nat (Z.to_nat 1)) with 1; rewrite u32_small by lia; split; [lia|split; [reflexivity|lia]].
    - assert (0 <= a * (b * c)) by (repeat apply Z.mul_nonneg_nonneg; lia); rewrite u32_small by lia; split; [lia|split; [reflexivity|lia]].
  Qed.
  Lemma spacings_ok npts extent (e : nat -> T) : good_npts npts -> (forall d, (d < 3)%nat -> extent (Z.of_nat d) = Ok (e d)) ->
    spacings npts extent = Ok (map (fun d => if 1 <? Z.of_nat (pts npts d) then n_div (e d) (n_of_Z (Z.of_nat (pts npts d) - 1)) else n_of_Z 0) (seq 0 3)).
  Proof.
    intros (Hl & Hf & _) He.
    pose proof (He 0%nat ltac:(lia)) as E0; pose proof (He 1%nat ltac:(lia)) as E1; pose proof (He 2%nat ltac:(lia)) as E2; change (Z.of_nat 0) with 0 in E0; change (Z.of_nat 1) with 1 in E1; change (Z.of_nat 2) with 2 in E2.
    unfold pts; destruct npts as [|a [|b [|c [|? ?]]]]; unfold len in Hl; cbn [length] in Hl; try lia;
      repeat match goal with H : Forall _ (_ :: _) |- _ => inversion H; subst; clear H end; cbn [nth map seq]; rewrite !Z2Nat.id by lia; unfold spacings.
    - change (iota (len [a])) with [0]; cbn [foldO]; change (rd [a] 0) with (Ok a); cbn [obind]; rewrite E0; destruct (1 <? a); reflexivity.
    - change (iota (len [a; b])) with [0; 1]; cbn [foldO]; change (rd [a; b] 0) with (Ok a); change (rd [a; b] 1) with (Ok b); cbn [obind]; rewrite E0, E1; destruct (1 <? a), (1 <? b); reflexivity.
    - change (iota (len [a; b; c])) with [0; 1; 2]; cbn [foldO]; change (rd [a; b; c] 0) with (Ok a); change (rd [a; b; c] 1) with (Ok b); change (rd [a; b; c] 2) with (Ok c); cbn [obind].
      rewrite E0, E1, E2; destruct (1 <? a), (1 <? b), (1 <? c); reflexivity.
  Qed.
End Loops.

Section Exact.
  Local Open Scope R_scope.
  Definition spacing (n : nat) (ext : R) : R := if (1 <? Z.of_nat n)%Z then ext / IZR (Z.of_nat n - 1) else 0.

  Lemma spacing_one ext : spacing 1 ext = 0.
  Proof. reflexivity. Qed.
  Lemma spacing_evenly n a ext : (2 <= n)%nat -> evenly n a (a + ext) (fun i => a + INR i * spacing n ext).
  Proof.
    intros Hn; unfold spacing; destruct (Z.ltb_spec 1 (Z.of_nat n)); [|lia].
    replace (IZR (Z.of_nat n - 1)) with (INR (n - 1)) by (rewrite INR_IZR_INZ; f_equal; lia).
    assert (P : INR (n - 1) <> 0) by (apply not_0_INR; lia).
    split; [cbn [INR]; ring|split; [field; exact P|]]; intros i Hi; rewrite plus_INR; cbn [INR]; field; exact P.
  Qed.
  Lemma spacing_between n ext i : (i < n)%nat -> exists t, 0 <= t <= 1 /\ INR i * spacing n ext = t * ext.
  Proof.
    intros Hi; unfold spacing; destruct (Z.ltb_spec 1 (Z.of_nat n)).
    - replace (IZR (Z.of_nat n - 1)) with (INR (n - 1)) by (rewrite INR_IZR_INZ; f_equal; lia).
      assert (P : 0 < INR (n - 1)) by (apply lt_0_INR; lia).
      exists (INR i / INR (n - 1)); split; [|field; lra].
      pose proof (pos_INR i); assert (INR i <= INR (n - 1)) by (apply le_INR; lia).
      pose proof (Rinv_0_lt_compat _ P); split; [unfold Rdiv; nra|].
      apply Rmult_le_reg_r with (INR (n - 1)); [exact P|]; unfold Rdiv; rewrite Rmult_assoc, Rinv_l by lra; lra.
    - exists 0; split; [lra|ring].
  Qed.
End Exact.

Lemma x_fastest_ext {T} n0 n1 n2 (X Y Z X' Y' Z' : nat -> T) rows : (forall i, (i < n0)%nat -> X i = X' i) -> (forall i, (i < n1)%nat -> Y i = Y' i) -> (forall i, (i < n2)%nat -> Z i = Z' i) ->
  x_fastest n0 n1 n2 X Y Z rows -> x_fastest n0 n1 n2 X' Y' Z' rows.
Proof. intros HX HY HZ [L H]; split; [exact L|]; intros i j k Hi Hj Hk; rewrite H, HX, HY, HZ by assumption; reflexivity. Qed.

Lemma from_dims_R npts c0 c1 c2 e0 e1 e2 : good_npts npts ->
  exists rows, @from_dims R r_num npts [c0; c1; c2] [e0; e1; e2] = Ok (mk 3 rows 3) /\
    x_fastest (pts npts 0) (pts npts 1) (pts npts 2)
      (fun i => (c0 - e0 / 2 + INR i * spacing (pts npts 0) e0)%R) (fun j => (c1 - e1 / 2 + INR j * spacing (pts npts 1) e1)%R) (fun k => (c2 - e2 / 2 + INR k * spacing (pts npts 2) e2)%R) rows.
Proof.
  intros G; destruct (total_points_ok npts G) as (Et & Er & Hm); pose proof G as (Hl & Hf & Hp).
  unfold from_dims; destruct (Z.eqb_spec (len npts) 0); [lia|]; destruct (Z.ltb_spec 3 (len npts)); [lia|]; cbn [orb].
  change (negb (len [c0; c1; c2] =? 3) || negb (len [e0; e1; e2] =? 3))%bool with false; cbv iota zeta.
  rewrite (@spacings_ok R r_num npts (rd [e0; e1; e2]) (fun d => nth d [e0; e1; e2] 0%R)); [|exact G|intros d Hd; destruct d as [|[|[|?]]]; try lia; reflexivity].
  cbn [map seq obind nth]; rewrite Et, Er.
  apply fill_grid_ok; [|exact Hm]; intros i j k Hi Hj Hk.
  cbn [n_sub n_add n_mul n_div n_of_Z r_num]; rewrite !INR_IZR_INZ; reflexivity.
Qed.
Lemma from_points_R npts a0 a1 a2 b0 b1 b2 : good_npts npts ->
  exists rows, @from_points R r_num npts [a0; a1; a2] [b0; b1; b2] = Ok (mk 3 rows 3) /\
    x_fastest (pts npts 0) (pts npts 1) (pts npts 2)
      (fun i => (a0 + INR i * spacing (pts npts 0) (b0 - a0))%R) (fun j => (a1 + INR j * spacing (pts npts 1) (b1 - a1))%R) (fun k => (a2 + INR k * spacing (pts npts 2) (b2 - a2))%R) rows.
Proof.
  intros G; destruct (total_points_ok npts G) as (Et & Er & Hm); pose proof G as (Hl & Hf & Hp).
  unfold from_points; destruct (Z.eqb_spec (len npts) 0); [lia|]; destruct (Z.ltb_spec 3 (len npts)); [lia|]; cbn [orb].
  change (negb (len [a0; a1; a2] =? 3) || negb (len [b0; b1; b2] =? 3))%bool with false; cbv iota zeta.
  rewrite (@spacings_ok R r_num npts _ (fun d => (nth d [b0; b1; b2] 0 - nth d [a0; a1; a2] 0)%R)); [|exact G|intros d Hd; destruct d as [|[|[|?]]]; try lia; reflexivity].
  cbn [map seq obind nth]; rewrite Et, Er.
  apply fill_grid_ok; [|exact Hm]; intros i j k Hi Hj Hk.
  cbn [n_sub n_add n_mul n_div n_of_Z r_num]; rewrite !INR_IZR_INZ; reflexivity.
Qed.

(** ** C87 *)
(** The full statement has [X 0 = nth d center 0] for a dimension [d] with one point. *)
Theorem C87_box_partial :
  forall (npts : list Z) (center dims : list R),
  good_npts npts -> len center = 3 -> len dims = 3 ->
  exists rows X Y Z, @from_dims R r_num npts center dims = Ok (mk 3 rows 3) /\
    x_fastest (pts npts 0) (pts npts 1) (pts npts 2) X Y Z rows /\
    Forall2 (fun d W =>
      ((2 <= pts npts d)%nat -> evenly (pts npts d) (nth d center 0 - nth d dims 0 / 2) (nth d center 0 + nth d dims 0 / 2) W)%R /\
      (pts npts d = 1%nat -> W 0%nat = (nth d center 0 - nth d dims 0 / 2)%R)) [0; 1; 2]%nat [X; Y; Z].
Proof.
  intros npts center dims G Lc Ld.
  destruct (AlgebraFacts.len3 center Lc) as (c0 & c1 & c2 & ->); destruct (AlgebraFacts.len3 dims Ld) as (e0 & e1 & e2 & ->).
  destruct (from_dims_R npts c0 c1 c2 e0 e1 e2 G) as (rows & E & F); exists rows; do 3 eexists; split; [exact E|split; [exact F|]].
  assert (A : forall n c e, ((2 <= n)%nat -> evenly n (c - e / 2) (c + e / 2) (fun i => c - e / 2 + INR i * spacing n e))%R /\
      (n = 1%nat -> (c - e / 2 + INR 0 * spacing n e)%R = (c - e / 2)%R)).
  { intros n c e; split; [intros Hn|intros ->; rewrite spacing_one; cbn [INR]; lra].
    replace (c + e / 2)%R with (c - e / 2 + e)%R by lra; apply spacing_evenly; exact Hn. }
  repeat apply Forall2_cons; try apply A; apply Forall2_nil.
Qed.
Print Assumptions C87_box_partial.

(** a coordinate with one point sits on the face of the box, not at the center *)
Theorem C87_refuted :
  exists (npts : list Z) (center dims : list R) rows row, good_npts npts /\ len center = 3 /\ len dims = 3 /\
    @from_dims R r_num npts center dims = Ok (mk 3 rows 3) /\ pts npts 1 = 1%nat /\
    nth_error rows 0 = Some row /\ nth 1 row 0%R <> nth 1 center 0%R.
Proof.
  assert (G : good_npts [2]) by (split; [cbv; split; discriminate|split; [repeat constructor; lia|reflexivity]]).
  destruct (from_dims_R [2] 0 0 0 1 1 1 G) as (rows & E & L & F).
  exists [2], [0; 0; 0]%R, [1; 1; 1]%R, rows; eexists; split; [exact G|split; [reflexivity|split; [reflexivity|split; [exact E|split; [reflexivity|split]]]]].
  - apply (F 0%nat 0%nat 0%nat); cbv; lia.
  - cbn [nth]; change (pts [2] 1) with 1%nat; rewrite spacing_one; cbn [INR]; lra.
Qed.
Print Assumptions C87_refuted.

Theorem C87_refused :
  forall {T} {NT : Num T} npts (center dims : list T),
  (len npts = 0 \/ 3 < len npts \/ len center <> 3 \/ len dims <> 3) -> from_dims npts center dims = Throw InvalidArgument.
Proof.
  intros T NT npts center dims H; unfold from_dims; pose proof (len_nonneg npts).
  destruct (Z.eqb_spec (len npts) 0); [reflexivity|]; destruct (Z.ltb_spec 3 (len npts)); [reflexivity|]; cbn [orb].
  destruct (Z.eqb_spec (len center) 3); [|reflexivity]; destruct (Z.eqb_spec (len dims) 3); [lia|reflexivity].
Qed.
Print Assumptions C87_refused.
Example C87_example : good_npts [4; 1; 3] /\ pts [4; 1; 3] 0 = 4%nat /\ pts [5; 5] 2 = 1%nat /\ evenly 3 (-1) 1 (fun i => INR i - 1)%R.
Proof.
  split; [split; [cbv; split; discriminate|split; [repeat constructor; lia|reflexivity]]|split; [reflexivity|split; [reflexivity|]]].
  split; [cbn; lra|split; [cbn; lra|]]; intros i _; rewrite plus_INR; cbn; lra.
Qed.

(** ** C88 *)
Theorem C88_from_points :
  forall (npts : list Z) (p1 p2 : list R),
  good_npts npts -> len p1 = 3 -> len p2 = 3 ->
  exists rows X Y Z, @from_points R r_num npts p1 p2 = Ok (mk 3 rows 3) /\
    x_fastest (pts npts 0) (pts npts 1) (pts npts 2) X Y Z rows /\
    Forall2 (fun d W =>
      ((2 <= pts npts d)%nat -> evenly (pts npts d) (nth d p1 0 ) (nth d p2 0) W)%R /\
      W 0%nat = nth d p1 0%R /\
      (forall i, (i < pts npts d)%nat -> (Rmin (nth d p1 0) (nth d p2 0) <= W i <= Rmax (nth d p1 0) (nth d p2 0))%R)) [0; 1; 2]%nat [X; Y; Z] /\
    ((1 <= pts npts 0 /\ 1 <= pts npts 1 /\ 1 <= pts npts 2)%nat ->
      nth_error rows 0 = Some p1 /\ forall d, (d < 3)%nat -> (2 <= pts npts d)%nat -> nth d (last rows []) 0%R = nth d p2 0%R).
Proof.
  intros npts p1 p2 G L1 L2.
  destruct (AlgebraFacts.len3 p1 L1) as (a0 & a1 & a2 & ->); destruct (AlgebraFacts.len3 p2 L2) as (b0 & b1 & b2 & ->).
  destruct (from_points_R npts a0 a1 a2 b0 b1 b2 G) as (rows & E & F); exists rows; do 3 eexists; split; [exact E|split; [exact F|]].
  assert (A : forall n a b, ((2 <= n)%nat -> evenly n a b (fun i => a + INR i * spacing n (b - a)))%R /\ (a + INR 0 * spacing n (b - a))%R = a /\
      (forall i, (i < n)%nat -> (Rmin a b <= a + INR i * spacing n (b - a) <= Rmax a b)%R)).
  { intros n a b; split; [|split].
    - intros Hn; replace b with (a + (b - a))%R at 1 by lra; apply spacing_evenly; exact Hn.
    - cbn [INR]; lra.
    - intros i Hi; destruct (spacing_between n (b - a) i Hi) as (t & Ht & ->).
      unfold Rmin, Rmax; destruct (Rle_dec a b); nra. }
  split; [repeat apply Forall2_cons; try apply A; apply Forall2_nil|].
  intros (H0 & H1 & H2); destruct F as [Lr F]; split.
  - specialize (F 0%nat 0%nat 0%nat ltac:(lia) ltac:(lia) ltac:(lia)); replace (0 + pts npts 0 * (0 + pts npts 1 * 0))%nat with 0%nat in F by lia.
    rewrite F; cbn [INR]; do 2 f_equal; [lra|f_equal; [lra|f_equal; lra]].
  - set (n0 := pts npts 0) in *; set (n1 := pts npts 1) in *; set (n2 := pts npts 2) in *.
    specialize (F (n0 - 1)%nat (n1 - 1)%nat (n2 - 1)%nat ltac:(lia) ltac:(lia) ltac:(lia)).
    assert (El : last rows [] = nth (length rows - 1) rows []).
    { clear; induction rows as [|r rows IH]; [reflexivity|]; destruct rows as [|r' rows]; [reflexivity|].
      change (last (r :: r' :: rows) []) with (last (r' :: rows) []); rewrite IH; replace (length (r :: r' :: rows) - 1)%nat with (S (length (r' :: rows) - 1)) by (cbn [length]; lia); reflexivity. }
    rewrite El, Lr.
    replace (n0 - 1 + n0 * (n1 - 1 + n1 * (n2 - 1)))%nat with (n0 * n1 * n2 - 1)%nat in F.
    2: { destruct n0 as [|n0]; [lia|]; destruct n1 as [|n1]; [lia|]; destruct n2 as [|n2]; [lia|]; cbn [Nat.sub]; rewrite !Nat.sub_0_r; nia. }
    apply nth_error_nth with (d := []) in F; rewrite F.
    intros d Hd Hn; destruct d as [|[|[|?]]]; [| | |lia]; cbn [nth]; apply (proj1 (A _ _ _)); exact Hn.
Qed.
Print Assumptions C88_from_points.

Theorem C88_refused :
  forall {T} {NT : Num T} npts (p1 p2 : list T),
  (len npts = 0 \/ 3 < len npts \/ len p1 <> 3 \/ len p2 <> 3) -> from_points npts p1 p2 = Throw InvalidArgument.
Proof.
  intros T NT npts p1 p2 H; unfold from_points; pose proof (len_nonneg npts).
  destruct (Z.eqb_spec (len npts) 0); [reflexivity|]; destruct (Z.ltb_spec 3 (len npts)); [reflexivity|]; cbn [orb].
  destruct (Z.eqb_spec (len p1) 3); [|reflexivity]; destruct (Z.eqb_spec (len p2) 3); [lia|reflexivity].
Qed.
Print Assumptions C88_refused.
Example C88_example : good_npts [3; 2] /\ (1 <= pts [3; 2]%Z 0 /\ 1 <= pts [3; 2]%Z 1 /\ 1 <= pts [3; 2]%Z 2)%nat.
Proof. split; [split; [cbv; split; discriminate|split; [repeat constructor; lia|reflexivity]]|cbv; lia]. Qed.
