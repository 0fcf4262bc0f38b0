(** * C166: what a NaN in the data does. *)
From Verif Require Import Base Num Serie Spec BaseFacts SerieFacts Functional FunctionalFacts F64 F64Arith F64Facts Mathf MathFacts Stats StatsFacts Utils UtilsFacts Algebra AlgebraFacts OrderFacts MinMaxFacts
  Props_Functional Props_AddSub Props_MultDiv Props_Equals Props_Algebra Props_Weighted Props_Sort Props_F64Sum Props_F64Length.
From Flocq Require Import IEEE754.BinarySingleNaN.
From Coq Require Import Reals Lra.
Open Scope Z_scope.
Opaque f64_of_Z.

Notation NaN := (B754_nan : F64).
(** the values that are numbers *)
Definition numbers (xs : list F64) : list F64 := filter (fun x => negb (is_nan x)) xs.
Definition component (c : nat) (rows : list (list F64)) : list F64 := map (fun r => nth c r NaN) rows.

Lemma is_nan_eq (x : F64) : is_nan x = true -> x = NaN.
Proof. destruct x; intros H; try (clear - H; discriminate H); reflexivity. Qed.
Lemma in_numbers x xs : In x (numbers xs) <-> In x xs /\ not_nan x.
Proof. unfold numbers, not_nan; rewrite filter_In, Bool.negb_true_iff; tauto. Qed.
Lemma numbers_good xs : Forall not_nan (numbers xs).
Proof. apply Forall_forall; intros x Hx; apply in_numbers in Hx; tauto. Qed.

(** ** arithmetic *)
Lemma nan_sub_l (y : F64) : f64_sub NaN y = NaN. Proof. destruct y; reflexivity. Qed.
Lemma nan_sub_r (y : F64) : f64_sub y NaN = NaN. Proof. destruct y; reflexivity. Qed.
Lemma nan_mul_l (y : F64) : f64_mul NaN y = NaN. Proof. destruct y; reflexivity. Qed.
Lemma nan_mul_r (y : F64) : f64_mul y NaN = NaN. Proof. destruct y; reflexivity. Qed.
Lemma nan_div_l (y : F64) : f64_div NaN y = NaN. Proof. destruct y; reflexivity. Qed.
Lemma nan_div_r (y : F64) : f64_div y NaN = NaN. Proof. destruct y; reflexivity. Qed.
Lemma sum_keeps {A} (g : A -> F64) l : fold_left (fun a v => f64_add a (g v)) l NaN = NaN.
Proof. induction l as [|x l IH]; cbn [fold_left]; [reflexivity|]; rewrite nan_add_l; exact IH. Qed.
Lemma sum_nan {A} (g : A -> F64) l x : In x l -> g x = NaN -> forall a, fold_left (fun a v => f64_add a (g v)) l a = NaN.
Proof.
  intros Hin Hx; induction l as [|y l IH]; intros a; [destruct Hin|]; cbn [fold_left].
  destruct Hin as [->|Hin]; [rewrite Hx, nan_add_r; apply sum_keeps|apply IH; exact Hin].
Qed.

(** ** minimum and maximum pass over NaN *)
Section Extremes.
  Context (L : Libm).
  Let N := f64_num L.
  Existing Instance N.
  Lemma min_skip a : n_min a NaN = a.
  Proof. unfold n_min; cbn [n_ltb N f64_num]. destruct a; reflexivity. Qed.
  Lemma max_skip a : n_max a NaN = a.
  Proof. unfold n_max; cbn [n_ltb N f64_num]. destruct a; reflexivity. Qed.
  Lemma min_stuck a : n_min NaN a = NaN.
  Proof. unfold n_min; cbn [n_ltb N f64_num]. destruct a; reflexivity. Qed.
  Lemma max_stuck a : n_max NaN a = NaN.
  Proof. unfold n_max; cbn [n_ltb N f64_num]. destruct a; reflexivity. Qed.
  Lemma skip_all (f : F64 -> F64 -> F64) : (forall a, f a NaN = a) -> forall xs a, fold_left f xs a = fold_left f (numbers xs) a.
  Proof.
    intros Hf; induction xs as [|x xs IH]; intros a; [reflexivity|]; unfold numbers; cbn [fold_left filter].
    destruct (is_nan x) eqn:E; cbn [negb]; [rewrite (is_nan_eq x E), Hf; apply IH|cbn [fold_left]; apply IH].
  Qed.
  Lemma stuck_all (f : F64 -> F64 -> F64) : (forall a, f NaN a = NaN) -> forall xs, fold_left f xs NaN = NaN.
  Proof. intros Hf; induction xs as [|x xs IH]; [reflexivity|]; cbn [fold_left]; rewrite Hf; exact IH. Qed.
End Extremes.

Theorem C166_minMax_scalar : forall (L : Libm) (s : Serie F64) xs, repr s 1 (col xs) -> xs <> [] ->
  (forall t, repr t 1 (col (numbers xs)) -> numbers xs <> [] -> @minMax F64 (f64_num L) s = @minMax F64 (f64_num L) t) /\
  (numbers xs = [] -> @minMax F64 (f64_num L) s = Ok ([@n_dblmax F64 (f64_num L)], [@n_lowest F64 (f64_num L)])).
Proof.
  intros L s xs Hs Hne; split.
  - intros t Ht Hn; rewrite (minMax_scalar (NT := f64_num L) s xs Hs Hne), (minMax_scalar (NT := f64_num L) t _ Ht Hn).
    rewrite (skip_all _ (min_skip L) xs), (skip_all _ (max_skip L) xs); reflexivity.
  - intros Hn; rewrite (minMax_scalar (NT := f64_num L) s xs Hs Hne).
    rewrite (skip_all _ (min_skip L) xs), (skip_all _ (max_skip L) xs), Hn; reflexivity.
Qed.
Print Assumptions C166_minMax_scalar.

(** the least and the greatest of some values *)
Definition extremes (xs : list F64) (mn mx : F64) : Prop :=
  In mn xs /\ In mx xs /\ forall x, In x xs -> Bleb mn x = true /\ Bleb x mx = true.

Theorem C166_minMax_vector : forall (L : Libm) (s : Serie F64) k r0 rows, repr s k (r0 :: rows) -> 2 <= k ->
  exists mn mx, @minMax F64 (f64_num L) s = Ok (mn, mx) /\ len mn = k /\ len mx = k /\
  forall c, Z.of_nat c < k ->
    (nth c r0 NaN = NaN -> nth c mn NaN = NaN /\ nth c mx NaN = NaN) /\
    (nth c r0 NaN <> NaN -> extremes (numbers (component c (r0 :: rows))) (nth c mn NaN) (nth c mx NaN)).
Proof.
  intros L s k r0 rows Hs Hk; rewrite (minMax_vector (NT := f64_num L) s k r0 rows Hs Hk).
  pose proof (repr_rows _ _ _ Hs) as Hr; inversion Hr as [|? ? L0 Hr']; subst.
  set (k := len r0) in *.
  assert (C : forall (f : F64 -> F64 -> F64) c, Z.of_nat c < k -> nth c (fold_left (map2 f) rows r0) NaN = fold_left f (component c rows) (nth c r0 NaN) /\ len (fold_left (map2 f) rows r0) = k).
  { intros f c Hc; apply (fold_map2_column (T := F64) f NaN c k rows r0 Hr' eq_refl Hc). }
  do 2 eexists; split; [reflexivity|]; split; [apply (C _ O); lia|]; split; [apply (C _ O); lia|].
  intros c Hc; destruct (C (@n_min F64 (f64_num L)) c Hc) as [-> _]; destruct (C (@n_max F64 (f64_num L)) c Hc) as [-> _]; split.
  - intros ->; split; apply stuck_all; [apply min_stuck|apply max_stuck].
  - intros Hn; set (x0 := nth c r0 NaN) in *.
    assert (G0 : not_nan x0) by (unfold not_nan; destruct (is_nan x0) eqn:E; [exfalso; apply Hn, is_nan_eq, E|reflexivity]).
    rewrite (skip_all _ (min_skip L)), (skip_all _ (max_skip L)).
    destruct (fold_min (NT := f64_num L) not_nan ext (f64_ordered L) _ (numbers_good (component c rows)) x0 G0) as (A1 & A2 & A3 & A4).
    destruct (fold_max (NT := f64_num L) not_nan ext (f64_ordered L) _ (numbers_good (component c rows)) x0 G0) as (B1 & B2 & B3 & B4).
    assert (E : numbers (component c (r0 :: rows)) = x0 :: numbers (component c rows)).
    { unfold numbers, component; cbn [map filter]; fold x0; unfold not_nan in G0; rewrite G0; reflexivity. }
    rewrite E; repeat split; [exact A4|exact B4| |]; destruct H as [<-|Hx].
    + apply Bleb_ext; assumption.
    + apply Bleb_ext; [exact A1|apply in_numbers in Hx; tauto|apply A3, Hx].
    + apply Bleb_ext; assumption.
    + apply Bleb_ext; [apply in_numbers in Hx; tauto|exact B1|apply B3, Hx].
Qed.
Print Assumptions C166_minMax_vector.

(** ** means, covariances, sums of products: the whole result is NaN *)
Theorem C166_mean : forall (L : Libm) (s : Serie F64),
  (forall xs, repr s 1 (col xs) -> In NaN xs -> @mean F64 (f64_num L) s = Ok (Number NaN)) /\
  (forall k rows, repr s k rows -> 2 <= k -> exists m, @mean F64 (f64_num L) s = Ok (Vector m) /\ len m = k /\
     forall c, Z.of_nat c < k -> In NaN (component c rows) -> nth c m NaN = NaN).
Proof.
  intros L s; split.
  - intros xs Hs Hin; rewrite (mean_scalar (NT := f64_num L) s xs Hs); cbn [n_add n_div n_of_Z f64_num].
    rewrite (sum_nan (fun v : F64 => v) xs NaN Hin eq_refl), nan_div_l; reflexivity.
  - intros k rows Hs Hk; rewrite (mean_vector (NT := f64_num L) s k rows Hs Hk); cbn [n_add n_div n_of_Z f64_num].
    pose proof (repr_rows _ _ _ Hs) as Hr.
    assert (L0 : len (replicate k (f64_of_Z 0)) = k) by (apply len_replicate; lia).
    eexists; split; [reflexivity|]; split.
    + rewrite len_map; apply (fold_map2_column (T := F64) f64_add NaN O k rows _ Hr L0); lia.
    + intros c Hc Hin; rewrite <- (nan_div_l (f64_of_Z (len rows))) at 1.
      rewrite (map_nth (fun v => f64_div v (f64_of_Z (len rows)))).
      rewrite (proj1 (fold_map2_column (T := F64) f64_add NaN c k rows _ Hr L0 Hc)).
      rewrite (sum_nan (fun v : F64 => v) _ NaN Hin eq_refl); apply nan_div_l.
Qed.
Print Assumptions C166_mean.

Theorem C166_covariance : forall (L : Libm) (x y : Serie F64) xs ys, repr x 1 (col xs) -> repr y 1 (col ys) -> len xs = len ys ->
  In NaN xs \/ In NaN ys -> @covariance F64 (f64_num L) x y = Ok NaN.
Proof.
  intros L x y xs ys Hx Hy Hl Hin; rewrite (covariance_steps (NT := f64_num L) x y xs ys Hx Hy Hl); f_equal.
  unfold cov_sum; cbn [n_add n_div n_mul n_of_Z f64_num].
  assert (D : forall l : list F64, In NaN l -> @deviations F64 (f64_num L) l = map (fun _ => NaN) l).
  { intros l Hn; unfold deviations; cbn [n_add n_div n_sub n_of_Z f64_num]. rewrite (sum_nan (fun v : F64 => v) l NaN Hn eq_refl), nan_div_l.
    apply map_ext; intros; apply nan_sub_r. }
  assert (Dl : forall l : list F64, length (@deviations F64 (f64_num L) l) = length l) by (intros; apply map_length).
  assert (P : exists p, In p (map2 f64_mul (@deviations F64 (f64_num L) xs) (@deviations F64 (f64_num L) ys)) /\ p = NaN).
  { destruct Hin as [Hin|Hin]; pose proof (D _ Hin) as E; rewrite E.
    - destruct xs as [|x0 xs]; [destruct Hin|]; destruct ys as [|y0 ys]; [unfold len in Hl; cbn [length] in Hl; lia|].
      specialize (Dl (y0 :: ys)); destruct (deviations (y0 :: ys)); [clear - Dl; discriminate Dl|]; cbn [map map2]; eexists; split; [left; reflexivity|apply nan_mul_l].
    - destruct ys as [|x0 ys]; [destruct Hin|]; destruct xs as [|y0 xs]; [unfold len in Hl; cbn [length] in Hl; lia|].
      specialize (Dl (y0 :: xs)); destruct (deviations (y0 :: xs)); [clear - Dl; discriminate Dl|]; cbn [map map2]; eexists; split; [left; reflexivity|apply nan_mul_r]. }
  destruct P as (p & Hp & ->); apply (sum_nan (fun v => f64_div v (f64_of_Z (len xs))) _ NaN Hp); apply nan_div_l.
Qed.
Print Assumptions C166_covariance.

(** ** item by item: NaN stays where it is *)
Lemma in_map2_nan (op : F64 -> F64 -> F64) : (forall y, op NaN y = NaN) -> (forall y, op y NaN = NaN) -> forall u v, length u = length v -> In NaN u \/ In NaN v -> In NaN (map2 op u v).
Proof.
  intros Hl Hr; induction u as [|x u IH]; intros [|y v] E [Hin|Hin]; try (destruct Hin; fail); try (clear - E; discriminate E); cbn [map2]; destruct Hin as [->|Hin].
  - left; apply Hl.
  - right; apply IH; [injection E; auto|auto].
  - left; apply Hr.
  - right; apply IH; [injection E; auto|auto].
Qed.
Theorem C166_items : forall (L : Libm) (a b : Serie F64) k ra rb, repr a k ra -> repr b k rb -> len ra = len rb -> ra <> [] -> 1 <= k ->
  exists sums differences products,
    @add F64 (f64_num L) a b = Ok (mk k sums 3) /\ @sub F64 (f64_num L) a b = Ok (mk k differences 3) /\ @dot F64 (f64_num L) a b = Ok (mk 1 (col products) 3) /\
    forall i u v, nth_error ra i = Some u -> nth_error rb i = Some v ->
      (exists p, nth_error products i = Some p /\ (In NaN u \/ In NaN v -> p = NaN)) /\
      (exists w w', nth_error sums i = Some w /\ nth_error differences i = Some w' /\
         forall c x y, nth_error u c = Some x -> nth_error v c = Some y -> x = NaN \/ y = NaN -> nth_error w c = Some NaN /\ nth_error w' c = Some NaN).
Proof.
  intros L a b k ra rb Ha Hb Hl Hne Hk.
  destruct (proj1 (C54_add_sub F64 (f64_num L) a b) k ra rb Ha Hb Hl) as [-> ->].
  assert (Hl' : length ra = length rb) by (unfold len in Hl; lia).
  rewrite (dot_ok F64 (f64_num L) a b k ra rb Ha Hb Hne ltac:(lia)).
  do 3 eexists; split; [reflexivity|]; split; [reflexivity|]; split; [reflexivity|].
  intros i u v Hu Hv; split.
  - eexists; split; [apply nth_error_map2; eassumption|]; intros Hin; unfold sum_prod; cbn [n_add n_mul n_of_Z f64_num].
    assert (E : length u = length v).
    { pose proof (rows_nth_len _ _ _ _ (repr_rows _ _ _ Ha) Hu) as E1; pose proof (rows_nth_len _ _ _ _ (repr_rows _ _ _ Hb) Hv) as E2; unfold len in *; lia. }
    apply (sum_nan (fun v : F64 => v) _ NaN (in_map2_nan f64_mul nan_mul_l nan_mul_r u v E Hin) eq_refl).
  - do 2 eexists; split; [apply nth_error_map2; eassumption|]; split; [apply nth_error_map2; eassumption|].
    intros c x y Hx Hy Hn; rewrite !(nth_error_map2 _ _ _ _ _ _ Hx Hy); cbn [n_add n_sub f64_num].
    destruct Hn as [->| ->]; rewrite ?nan_add_l, ?nan_add_r, ?nan_sub_l, ?nan_sub_r; split; reflexivity.
Qed.
Print Assumptions C166_items.

(** a weight of 0 does not take a NaN away; a small divisor does *)
Theorem C166_weights : forall (L : Libm),
  (forall ss k n tables ws, one_shape ss k n tables -> ss <> [] -> len ws = len ss -> 1 <= n -> 1 <= k ->
     exists rows, @weigthedSum F64 (f64_num L) ss ws = Ok (mk k rows 3) /\ len rows = n /\ rows_of_size k rows /\
     forall i c, Z.of_nat i < n -> Z.of_nat c < k -> (exists t w, In (t, w) (combine tables ws) /\ @at2 F64 (f64_num L) t i c = NaN) -> @at2 F64 (f64_num L) rows i c = NaN) /\
  (forall s k rows divider ws, repr s k rows -> repr divider 1 (col ws) -> len ws = len rows -> rows <> [] -> 1 <= k ->
     exists out, @div_serie F64 (f64_num L) divider s = Ok (mk k out 3) /\
     forall i r w, nth_error rows i = Some r -> nth_error ws i = Some w -> exists o, nth_error out i = Some o /\
       (Bltb (Babs w) (@n_ratio F64 (f64_num L) 1 10000000000) = true -> o = map (fun _ => #0) r) /\
       (w = NaN -> o = map (fun _ => NaN) r) /\
       (Bltb (Babs w) (@n_ratio F64 (f64_num L) 1 10000000000) = false -> forall c, nth_error r c = Some NaN -> nth_error o c = Some NaN)).
Proof.
  intros L; split.
  - intros ss k n tables ws Ho Hne Hw Hn Hk; destruct (C61_weighted_sum F64 (f64_num L) ss k n tables ws Ho Hne Hw Hn Hk) as (rows & E & Ln & Hr & Hc).
    exists rows; split; [exact E|]; split; [exact Ln|]; split; [exact Hr|]; intros i c Hi Hcc (t & w & Hin & Ht); rewrite (Hc i c Hi Hcc).
    unfold combination; cbn [n_add n_mul f64_num].
    apply (sum_nan (fun tw : list (list F64) * F64 => f64_mul (@at2 F64 (f64_num L) (fst tw) i c) (snd tw)) _ (t, w) Hin); cbn [fst snd]; rewrite Ht; apply nan_mul_l.
  - intros s k rows divider ws Hs Hd Hl Hne Hk; destruct (C60_div F64 (f64_num L) s k rows Hs) as [_ D]; rewrite (D divider ws Hd Hl Hne Hk).
    eexists; split; [reflexivity|]; intros i r w Hr Hw; eexists; split; [apply nth_error_map2; eassumption|]; split; [|split].
    + intros Hlt; apply map_ext; intros x; unfold guarded; cbn [n_ltb n_abs f64_num]; rewrite Hlt; reflexivity.
    + intros ->; apply map_ext; intros x; unfold guarded; cbn [n_ltb n_abs n_div f64_num]. change (Babs NaN) with NaN.
      replace (Bltb NaN (n_ratio 1 10000000000)) with false by (symmetry; apply B_nan_cmp; left; reflexivity). apply nan_div_r.
    + intros Hlt c Hc; rewrite nth_error_map, Hc; cbn [option_map]; unfold guarded; cbn [n_ltb n_abs n_div f64_num]; rewrite Hlt, nan_div_l; reflexivity.
Qed.
Print Assumptions C166_weights.

(** ** comparisons: an item with a NaN is equal to no item *)
Theorem C166_masks : forall (L : Libm) (a b : Serie F64) k ra rb epsilon, repr a k ra -> repr b k rb -> len ra = len rb -> 1 <= k ->
  exists ms ms', @equalityMask F64 (f64_num L) a b = Ok (mk 1 (col ms) 3) /\ @approximateEqualityMask F64 (f64_num L) a b epsilon = Ok (mk 1 (col ms') 3) /\
  forall i u v, nth_error ra i = Some u -> nth_error rb i = Some v -> In NaN u \/ In NaN v -> nth_error ms i = Some #0 /\ nth_error ms' i = Some #0.
Proof.
  intros L a b k ra rb epsilon Ha Hb Hl Hk.
  destruct (proj1 (C67_equality_mask F64 (f64_num L) a b) k ra rb Ha Hb Hl Hk) as (ms & E & _ & Hm).
  destruct (proj1 (C67_approximate_mask F64 (f64_num L) a b epsilon) k ra rb Ha Hb Hl Hk) as (ms' & E' & _ & Hm').
  exists ms, ms'; split; [exact E|]; split; [exact E'|]; intros i u v Hu Hv Hin.
  assert (No : forall P : F64 -> F64 -> Prop, (forall y, ~ P NaN y) -> (forall y, ~ P y NaN) -> ~ Forall2 P u v).
  { intros P H1 H2 F; clear - F H1 H2 Hin; induction F as [|x y u v H F IH]; [destruct Hin as [[]|[]]|].
    destruct Hin as [[->|Hin]|[->|Hin]]; [exact (H1 _ H)|auto|exact (H2 _ H)|auto]. }
  split.
  - destruct (Hm i u v Hu Hv) as [[F _]|[_ R]]; [exfalso; revert F; apply No; cbn [n_eqb f64_num]; intros y H|exact R].
    + rewrite (proj2 (proj2 (B_nan_cmp NaN y (or_introl eq_refl)))) in H; clear - H; discriminate H.
    + rewrite (proj2 (proj2 (B_nan_cmp y NaN (or_intror eq_refl)))) in H; clear - H; discriminate H.
  - destruct (Hm' i u v Hu Hv) as [[F _]|[_ R]]; [exfalso; revert F; apply No; cbn [n_leb n_abs n_sub f64_num]; intros y H|exact R].
    + rewrite nan_sub_l in H; change (Babs NaN) with NaN in H; rewrite (proj1 (proj2 (B_nan_cmp NaN epsilon (or_introl eq_refl)))) in H; clear - H; discriminate H.
    + rewrite nan_sub_r in H; change (Babs NaN) with NaN in H; rewrite (proj1 (proj2 (B_nan_cmp NaN epsilon (or_introl eq_refl)))) in H; clear - H; discriminate H.
Qed.
Print Assumptions C166_masks.

(** ** sorting: undefined with a NaN and two different numbers, and only then *)
Lemma nan_swo L (xs : list F64) : swo_on (@n_ltb F64 (f64_num L)) xs = false <-> In NaN xs /\ exists x y, In x xs /\ In y xs /\ Bltb x y = true.
Proof.
  split.
  - intros H; destruct (in_dec (fun x y : bool => Bool.bool_dec x y) true (map is_nan xs)) as [Hn|Hn].
    + apply in_map_iff in Hn; destruct Hn as (z & Ez & Hz); apply is_nan_eq in Ez; subst z; split; [exact Hz|].
      destruct (existsb (fun x => existsb (fun y => Bltb x y) xs) xs) eqn:E.
      * apply existsb_exists in E; destruct E as (x & Hx & E); apply existsb_exists in E; destruct E as (y & Hy & E); eauto.
      * exfalso; assert (A : forall x y, In x xs -> In y xs -> Bltb x y = false).
        { intros x y Hx Hy; destruct (Bltb x y) eqn:B; [|reflexivity]; rewrite <- E; symmetry; apply existsb_exists; exists x; split; [exact Hx|]; apply existsb_exists; eauto. }
        assert (S : swo_on (@n_ltb F64 (f64_num L)) xs = true); [|congruence].
        apply swo_on_spec; cbn [n_ltb f64_num]; repeat split; repeat intro; auto. rewrite A in H3 by assumption; clear - H3; discriminate H3.
    + exfalso; rewrite (keyed_swo (NT := f64_num L) not_nan ext (f64_ordered L)) in H; [clear - H; discriminate H|].
      apply Forall_forall; intros x Hx; unfold not_nan; destruct (is_nan x) eqn:E; [exfalso; apply Hn, in_map_iff; eauto|reflexivity].
  - intros (Hn & x & y & Hx & Hy & Hlt); apply Bool.not_true_is_false; intros S; apply swo_on_spec in S; destruct S as (_ & _ & I).
    destruct (I x NaN y Hx Hn Hy) as [F _]; cbn [n_ltb f64_num] in *; try (apply B_nan_cmp; auto; fail). congruence.
Qed.
Theorem C166_sort : forall (L : Libm) (sorter : Sorter) (s : Serie F64) xs, conforms sorter -> repr s 1 (col xs) ->
  (sort_default (H := f64_num L) sorter s = UB <-> In NaN xs /\ exists x y, In x xs /\ In y xs /\ Bltb x y = true) /\
  (In NaN xs -> (exists x y, In x xs /\ In y xs /\ Bltb x y = true) ->
     (forall q, Bltb q #0 = false -> Bltb #1 q = false -> @quantile F64 (f64_num L) sorter s q = UB) /\ @IQR F64 (f64_num L) sorter s = UB).
Proof.
  intros L sorter s xs Hc Hs.
  assert (U : sort_default (H := f64_num L) sorter s = UB <-> swo_on (@n_ltb F64 (f64_num L)) xs = false).
  { unfold sort_default; split; intros H.
    - destruct (swo_on (@n_ltb F64 (f64_num L)) xs) eqn:W; [|reflexivity]; exfalso.
      destruct (Hc F64 _ xs W) as [P _]. rewrite (sort_scalar (NT := f64_num L) sorter s xs _ Hs W) in H; [clear - H; discriminate H|].
      unfold len; f_equal; symmetry; apply Permutation.Permutation_length, P.
    - unfold sort_by, isValid; rewrite (repr_itemSize_ _ _ _ Hs), (repr_itemSize _ _ _ Hs), (repr_count _ _ _ Hs), len_col; cbn [negb Z.ltb Z.compare Z.eqb Pos.eqb].
      assert (E : mapO (get_double s) (iota (len xs)) = Ok xs).
      { rewrite (mapO_ext _ (rd xs)); [apply mapO_rd_iota|]; intros i Hi; apply in_iota in Hi; apply (get_double_repr s xs); [exact Hs|lia]. }
      rewrite E; cbn [obind]; unfold std_sort; rewrite H; reflexivity. }
  rewrite U, nan_swo; split; [tauto|]; intros Hn Hx.
  assert (B : sort_default (H := f64_num L) sorter s = UB) by (apply U, nan_swo; auto).
  assert (Q : forall q, Bltb q #0 = false -> Bltb #1 q = false -> @quantile F64 (f64_num L) sorter s q = UB).
  { intros q H0 H1; unfold quantile; rewrite (isValid_repr _ _ _ Hs), (repr_itemSize _ _ _ Hs); cbn [negb Z.ltb Z.compare Z.eqb Pos.eqb].
    cbn [n_ltb n_of_Z f64_num]; rewrite H0, H1; cbn [orb]; rewrite B; reflexivity. }
  split; [exact Q|]; unfold IQR; rewrite Q; [reflexivity| |]; vm_compute; reflexivity.
Qed.
Print Assumptions C166_sort.

(** Non-vacuity and sharpness: the first item decides whether a NaN shows in minMax; [NaN; 1] can be sorted, [1; NaN; 2] not. *)
Section Examples.
  Local Existing Instance F64N.
  Definition s_first : Serie F64 := mk 2 [[NaN; #0]; [#1; #0]] 3.
  Definition s_later : Serie F64 := mk 2 [[#1; #0]; [NaN; #0]] 3.
  Definition shown (o : outcome (list F64 * list F64)) : list bool := match o with Ok (mn, mx) => map is_nan (mn ++ mx) | _ => [] end.
  Example C166_example : repr s_first 2 [[NaN; #0]; [#1; #0]] /\ repr s_later 2 [[#1; #0]; [NaN; #0]] /\
    shown (minMax s_first) = [true; false; true; false] /\ shown (minMax s_later) = [false; false; false; false] /\
    swo_on n_ltb [#1; NaN; #2] = false /\ swo_on n_ltb [NaN; #1; NaN; #1] = true.
  Proof. split; [repr_ex|]; split; [repr_ex|]; repeat split; vm_compute; reflexivity. Qed.
  Example C166_scalar_example : repr (mk 1 (col [NaN; #3; #5; NaN]) 3) 1 (col [NaN; #3; #5; NaN]) /\ In NaN [NaN; #3; #5; NaN] /\ Bltb #3 #5 = true /\
    repr (mk 1 (col (numbers [NaN; #3; #5; NaN])) 3) 1 (col (numbers [NaN; #3; #5; NaN])) /\ length (numbers [NaN; #3; #5; NaN]) = 2%nat.
  Proof. split; [repr_ex|]; split; [left; reflexivity|]; split; [vm_compute; reflexivity|]; split; [|vm_compute; reflexivity].
    assert (E : length (numbers [NaN; #3; #5; NaN]) = 2%nat) by (vm_compute; reflexivity).
    destruct (numbers [NaN; #3; #5; NaN]) as [|x [|y [|]]]; try (clear - E; discriminate E); repr_ex.
  Qed.
End Examples.
