(** * Lemmas on src/view. *)
From Verif Require Import Base Num Serie Spec BaseFacts SerieFacts Functional FunctionalFacts Mathf MathFacts MinMaxFacts Views AlgebraFacts.
Open Scope Z_scope.

(** ** Nested loops as one loop *)
Definition grid {A B} (I : list A) (J : A -> list B) : list (A * B) := flat_map (fun i => map (pair i) (J i)) I.
Lemma foldO_grid {S A B} (body : S -> A -> B -> outcome S) (I : list A) (J : A -> list B) s :
  foldO (fun s i => foldO (fun s j => body s i j) (J i) s) I s = foldO (fun s p => body s (fst p) (snd p)) (grid I J) s.
Proof.
  revert s; induction I as [|i I IH]; intros s; [reflexivity|]; unfold grid; cbn [flat_map]; rewrite foldO_app, foldO_map; cbn [foldO fst snd].
  destruct (foldO _ (J i) s); cbn [obind]; [apply IH|reflexivity|reflexivity].
Qed.
Lemma in_grid {A B} (I : list A) (J : A -> list B) i j : In (i, j) (grid I J) <-> In i I /\ In j (J i).
Proof.
  unfold grid; rewrite in_flat_map; split.
  - intros (x & Hx & Hj); apply in_map_iff in Hj; destruct Hj as (y & E & Hy); injection E as -> ->; auto.
  - intros [Hi Hj]; exists i; split; [exact Hi|apply in_map; exact Hj].
Qed.

Lemma wr_mid {A} (pre : list A) x post y p : p = len pre -> wr (pre ++ x :: post) p y = Ok (pre ++ y :: post).
Proof.
  intros ->; rewrite wr_ok by (rewrite len_app, len_cons; unfold len; lia); f_equal; unfold len; rewrite Nat2Z.id; apply upd_nat_mid.
Qed.
Lemma rd_mid {A} (pre : list A) x post p : p = len pre -> rd (pre ++ x :: post) p = Ok x.
Proof.
  intros ->; unfold len; apply rd_nat; rewrite nth_error_app2 by lia; rewrite Nat.sub_diag; reflexivity.
Qed.

(** writing one value after the other *)
Lemma fill_loop {A Q} (f : Q -> outcome A) (g : Q -> A) : forall qs pre rest, (forall q, In q qs -> f q = Ok (g q)) -> length rest = length qs ->
  foldO (fun (kv : Z * list A) q => let* x := f q in let* v := wr (snd kv) (fst kv) x in Ok (fst kv + 1, v)) qs (len pre, pre ++ rest)
  = Ok (len pre + len qs, pre ++ map g qs).
Proof.
  induction qs as [|q qs IH]; intros pre rest Hf Hl.
  - destruct rest; [|discriminate]; cbn [foldO map]; do 2 f_equal; unfold len; simpl; lia.
  - destruct rest as [|r rest]; [discriminate|]; cbn [foldO fst snd]; rewrite Hf by (left; reflexivity); cbn [obind].
    rewrite wr_mid by reflexivity; cbn [obind].
    specialize (IH (pre ++ [g q]) rest (fun q Hq => Hf q (or_intror Hq)) ltac:(simpl in Hl; lia)).
    rewrite <- !app_assoc in IH; cbn [app] in IH; replace (len (pre ++ [g q])) with (len pre + 1) in IH by (rewrite len_app; reflexivity).
    rewrite IH; cbn [map]; do 2 f_equal; rewrite len_cons; lia.
Qed.

(** accumulating into one cell after the other *)
Lemma cell_loop {A K} (f : K -> outcome A) (g : K -> A) (op : A -> A -> A) pre post p : p = len pre ->
  forall ks a, (forall k, In k ks -> f k = Ok (g k)) ->
  foldO (fun t k => let* x := f k in let* old := rd t p in wr t p (op old x)) ks (pre ++ a :: post)
  = Ok (pre ++ fold_left op (map g ks) a :: post).
Proof.
  intros Hp; induction ks as [|k ks IH]; intros a Hf; [reflexivity|]; cbn [foldO map fold_left].
  rewrite Hf by (left; reflexivity); cbn [obind]; rewrite rd_mid by exact Hp; cbn [obind]; rewrite wr_mid by exact Hp; cbn [obind].
  apply IH; intros; apply Hf; right; assumption.
Qed.
Lemma accum_loop {A Q K} (f : Q -> K -> outcome A) (g : Q -> K -> A) (op : A -> A -> A) (pos : Q -> Z) (ks : list K) z : forall qs pre,
  (forall q k, In q qs -> In k ks -> f q k = Ok (g q k)) ->
  (forall j q, nth_error qs j = Some q -> pos q = len pre + Z.of_nat j) ->
  foldO (fun t q => foldO (fun t k => let* x := f q k in let* old := rd t (pos q) in wr t (pos q) (op old x)) ks t) qs (pre ++ repeat z (length qs))
  = Ok (pre ++ map (fun q => fold_left op (map (g q) ks) z) qs).
Proof.
  induction qs as [|q qs IH]; intros pre Hf Hp; [reflexivity|]; cbn [foldO length repeat map].
  rewrite (cell_loop (f q) (g q) op pre _ (pos q)).
  - cbn [obind]; specialize (IH (pre ++ [fold_left op (map (g q) ks) z])); rewrite <- !app_assoc in IH; cbn [app] in IH.
    apply IH; [intros; apply Hf; [right|]; assumption|].
    intros j q' E; rewrite (Hp (S j) q' E), len_app; unfold len; simpl length; lia.
  - rewrite (Hp 0%nat q eq_refl); lia.
  - intros; apply Hf; [left; reflexivity|assumption].
Qed.

(** writing anywhere, the values agreeing *)
Lemma scatter_loop {A Q} (f : Q -> outcome A) (g : Q -> A) (pos : Q -> Z) : forall qs w,
  (forall q, In q qs -> f q = Ok (g q)) -> (forall q, In q qs -> 0 <= pos q < len w) ->
  (forall q q', In q qs -> In q' qs -> pos q = pos q' -> g q = g q') ->
  exists w', foldO (fun w q => let* x := f q in wr w (pos q) x) qs w = Ok w' /\ len w' = len w /\
    forall q, In q qs -> nth_error w' (Z.to_nat (pos q)) = Some (g q).
Proof.
  intros qs; induction qs as [|q qs IH] using rev_ind; intros w Hf Hp Hg.
  - exists w; repeat split; intros q [].
  - destruct (IH w) as (w' & E & L & P).
    + intros; apply Hf, in_or_app; left; assumption.
    + intros; apply Hp, in_or_app; left; assumption.
    + intros; apply Hg; auto; apply in_or_app; left; assumption.
    + assert (Hq : In q (qs ++ [q])) by (apply in_or_app; right; left; reflexivity).
      exists (upd_nat w' (Z.to_nat (pos q)) (g q)); split; [|split].
      * rewrite foldO_app, E; cbn [obind foldO]; rewrite Hf by exact Hq; cbn [obind]; rewrite wr_ok by (rewrite L; apply Hp; exact Hq); reflexivity.
      * rewrite len_upd; exact L.
      * intros q' Hq'; destruct (Nat.eq_dec (Z.to_nat (pos q)) (Z.to_nat (pos q'))) as [Ep|Ep].
        -- rewrite <- Ep, nth_error_upd_same.
           2: { pose proof (Hp q Hq); unfold len in L, H; lia. }
           f_equal; apply Hg; auto; pose proof (Hp q Hq); pose proof (Hp q' Hq'); lia.
        -- rewrite nth_error_upd_other by exact Ep; apply P; apply in_app_or in Hq'; destruct Hq' as [Hq'|[->|[]]]; [exact Hq'|congruence].
Qed.

(** a conjunction evaluated from left to right, stopping at the first false *)
Lemma forall_loop {Q} (f : Q -> outcome bool) (g : Q -> bool) : forall qs ok, (forall q, In q qs -> f q = Ok (g q)) ->
  foldO (fun (ok : bool) q => if ok then f q else Ok false) qs ok = Ok (ok && forallb g qs)%bool.
Proof.
  induction qs as [|q qs IH]; intros ok Hf; cbn [foldO forallb]; [rewrite andb_true_r; reflexivity|].
  destruct ok; [rewrite Hf by (left; reflexivity)|]; cbn [obind]; rewrite IH by (intros; apply Hf; right; assumption); reflexivity.
Qed.

(** ** The grid of indices *)
Lemma iota_nat n : iota (Z.of_nat n) = map Z.of_nat (seq 0 n).
Proof. unfold iota; rewrite Nat2Z.id; reflexivity. Qed.
Lemma iota_from_nat a n : iota_from (Z.of_nat a) (Z.of_nat n) = map Z.of_nat (seq a (n - a)).
Proof. unfold iota_from; rewrite Nat2Z.id; f_equal; f_equal; lia. Qed.

Definition square_grid (n : nat) : list (nat * nat) := grid (seq 0 n) (fun _ => seq 0 n).
Definition upper (n : nat) : list (nat * nat) := grid (seq 0 n) (fun i => seq i (n - i)).
Definition zz (p : nat * nat) : Z * Z := (Z.of_nat (fst p), Z.of_nat (snd p)).
Lemma grid_zz (I : list nat) (J : nat -> list nat) (J' : Z -> list Z) : (forall i, In i I -> J' (Z.of_nat i) = map Z.of_nat (J i)) ->
  grid (map Z.of_nat I) J' = map zz (grid I J).
Proof.
  intros H; induction I as [|i I IH]; [reflexivity|]; unfold grid in *; cbn [map flat_map]; rewrite map_app, IH.
  - f_equal; rewrite H by (left; reflexivity); rewrite !map_map; reflexivity.
  - intros; apply H; right; assumption.
Qed.
Lemma grid_square n : grid (iota (Z.of_nat n)) (fun _ => iota (Z.of_nat n)) = map zz (square_grid n).
Proof. rewrite iota_nat; apply grid_zz; reflexivity. Qed.
Lemma grid_upper n : grid (iota (Z.of_nat n)) (fun i => iota_from i (Z.of_nat n)) = map zz (upper n).
Proof. rewrite iota_nat; apply grid_zz; intros; apply iota_from_nat. Qed.
Lemma in_square_grid n i j : In (i, j) (square_grid n) <-> (i < n)%nat /\ (j < n)%nat.
Proof. unfold square_grid; rewrite in_grid, !in_seq; lia. Qed.
Lemma in_upper n i j : In (i, j) (upper n) <-> (i <= j < n)%nat.
Proof. unfold upper; rewrite in_grid, !in_seq; lia. Qed.

Lemma flat_map_length_const {A B} (f : A -> list B) n l : (forall x, In x l -> length (f x) = n) -> length (flat_map f l) = (length l * n)%nat.
Proof.
  induction l as [|x l IH]; intros H; [reflexivity|]; cbn [flat_map length]; rewrite app_length, H, IH by (auto using in_eq, in_cons); simpl; lia.
Qed.
Lemma square_grid_length n : length (square_grid n) = (n * n)%nat.
Proof.
  unfold square_grid, grid; rewrite (flat_map_length_const _ n); [rewrite seq_length; reflexivity|].
  intros; rewrite map_length, seq_length; reflexivity.
Qed.
(** the position in row order *)
Lemma square_grid_flat n : map (fun p => (fst p * n + snd p)%nat) (square_grid n) = seq 0 (n * n).
Proof.
  unfold square_grid, grid; assert (G : forall r a, map (fun p => (fst p * n + snd p)%nat) (flat_map (fun i => map (pair i) (seq 0 n)) (seq a r)) = seq (a * n) (r * n)).
  { induction r as [|r IH]; intros a; [reflexivity|]; cbn [seq flat_map]; rewrite map_app, IH, map_map; cbn [fst snd].
    replace (S r * n)%nat with (n + r * n)%nat by lia; rewrite seq_app; f_equal; [|f_equal; lia].
    clear; generalize (a * n)%nat as b; intros b; change (map (fun x => (b + x)%nat) (seq 0 n) = seq b n).
    transitivity (seq (b + 0) n); [|f_equal; lia]; generalize 0%nat as c; induction n as [|n IH]; intros c; [reflexivity|].
    cbn [seq map]; f_equal; rewrite IH; f_equal; lia. }
  apply (G n 0%nat).
Qed.
Lemma square_grid_pos n j p : nth_error (square_grid n) j = Some p -> (fst p * n + snd p)%nat = j.
Proof.
  intros E; assert (Q : nth_error (map (fun p => (fst p * n + snd p)%nat) (square_grid n)) j = Some (fst p * n + snd p)%nat) by (rewrite nth_error_map, E; reflexivity).
  rewrite square_grid_flat in Q; assert (Hj : (j < n * n)%nat) by (rewrite <- square_grid_length; apply nth_error_Some; congruence).
  rewrite (nth_error_nth' _ 0%nat) in Q by (rewrite seq_length; exact Hj); rewrite seq_nth in Q by exact Hj; injection Q as Q; lia.
Qed.
Lemma square_grid_nth n i j : (i < n)%nat -> (j < n)%nat -> nth_error (square_grid n) (i * n + j) = Some (i, j).
Proof.
  intros Hi Hj; assert (H : In (i, j) (square_grid n)) by (apply in_square_grid; auto).
  apply In_nth_error in H; destruct H as [p H]; pose proof (square_grid_pos _ _ _ H) as Q; cbn [fst snd] in Q; rewrite Q; exact H.
Qed.

(** ** Square matrices *)
Section Square.
  Context {T : Type} {NT : Num T}.

  (** a view of [n] rows of [n] numbers, alive *)
  Definition views (M : matrix T) (n : nat) : Prop :=
    m_alive M = true /\ m_m M = Z.of_nat n /\ length (m_data M) = (n * n)%nat /\ Z.of_nat (n * n) < two32.
  Definition entry (v : list T) (n i j : nat) : T := nth (i * n + j) v (n_of_Z 0).

  Lemma index_nat n i j : (i < n)%nat -> (j < n)%nat -> Z.of_nat (n * n) < two32 -> index (Z.of_nat i) (Z.of_nat j) (Z.of_nat n) = Z.of_nat (i * n + j).
  Proof.
    intros Hi Hj Hn; unfold index, u32; rewrite Z.mod_small; [lia|].
    assert (i * n + j < n * n)%nat by nia; fold two32; lia.
  Qed.
  Lemma m_at_ok M n i j : views M n -> (i < n)%nat -> (j < n)%nat -> m_at M (Z.of_nat i) (Z.of_nat j) = Ok (entry (m_data M) n i j).
  Proof.
    intros (Ha & Hm & Hl & Hn) Hi Hj; unfold m_at, m_view; rewrite Ha, Hm; cbn [obind]; rewrite index_nat by assumption.
    apply rd_nat; apply nth_error_nth'; rewrite Hl; nia.
  Qed.
End Square.

Lemma fold_loop {A Q} (f : Q -> outcome A) (g : Q -> A) (op : A -> A -> A) : forall qs a, (forall q, In q qs -> f q = Ok (g q)) ->
  foldO (fun t q => let* x := f q in Ok (op t x)) qs a = Ok (fold_left op (map g qs) a).
Proof.
  induction qs as [|q qs IH]; intros a Hf; [reflexivity|]; cbn [foldO map fold_left]; rewrite Hf by (left; reflexivity); cbn [obind].
  apply IH; intros; apply Hf; right; assumption.
Qed.
