(** * C159: the programs in the comments of the headers. *)
From Verif Require Import Base Num Serie Spec BaseFacts SerieFacts Functional FunctionalFacts Utils UtilsFacts Mathf StatsFacts Streams.
From Verif Require Import RNum F64 F64Facts F64Round Props_MultDiv Props_Functional Props_Filter Props_Fold Props_Streams.
From Verif Require Import DocComments.
From Flocq Require Import Core IEEE754.BinarySingleNaN.
From Coq Require Import Reals Lra Zquot.
From Coq Require String.
Import String.StringSyntax.
Open Scope Z_scope.
Opaque f64_of_Z.

(** ** inline/Serie.hxx: get and set *)
Theorem C159_get :
  forall (T : Type) (NT : Num T) (s : Serie T) k rows, repr s k rows ->
  (forall i r, nth_error rows i = Some r -> get_plain s (Z.of_nat i) = Ok r) /\
  (forall x y z : T, k = 1 -> rows = col [x; y; z] -> get_double s 0 = Ok x /\ get_plain s 0 = Ok [x]) /\
  (forall x y z v : T, set_double (mk 1 (col [x; y; z]) 3) 0 v = Ok (mk 1 (col [v; y; z]) 3)) /\
  (forall x0 x1 x2 y0 y1 y2 v0 v1 v2 : T, set_array (mk 3 [[x0; x1; x2]; [y0; y1; y2]] 3) 0 [v0; v1; v2] = Ok (mk 3 [[v0; v1; v2]; [y0; y1; y2]] 3)).
Proof.
  intros T NT s k rows Hs; split; [|split; [|split; reflexivity]].
  - intros i r Hi; unfold get_plain; exact (reads_array s k rows Hs i r Hi).
  - intros x y z -> ->; split; [exact (reads_scalar s [x; y; z] Hs 0%nat x eq_refl)|exact (reads_array s 1 _ Hs 0%nat [x] eq_refl)].
Qed.
Print Assumptions C159_get.

(** ** Serie.h: the display *)
Lemma calls_out {T A : Type} (f : A -> Z -> M (Out T) unit) (g : A -> Out T) l : forall i w,
  (forall x i w, In x l -> f x i w = (Ok tt, w ++ g x)) ->
  calls f (enum_from i l) w (map (fun _ => tt) l) (w ++ concat (map g l)).
Proof.
  induction l as [|x l IH]; intros i w Hf; cbn [enum_from map concat]; [rewrite app_nil_r; constructor|].
  econstructor; [apply Hf; left; reflexivity|]; rewrite app_assoc; apply IH; intros; apply Hf; right; assumption.
Qed.
(** numbers: each on its own line of std::cerr, as the comment says.  Arrays: the numbers go to std::cout, in brackets and with
    commas; std::cerr gets the ends of the lines only.  On Series of the other kind both throw before anything is written. *)
Theorem C159_display :
  forall (T : Type) (NT : Num T) (s : Serie T) w,
  (forall xs, repr s 1 (col xs) ->
     show_numbers s w = (Ok tt, w ++ on Cerr (concat (map (fun x => [NumT x; Endl]) xs))) /\ show_arrays s w = (Throw InvalidArgument, w)) /\
  (forall k rows, repr s k rows -> 2 <= k ->
     show_arrays s w = (Ok tt, w ++ concat (map (fun r => on Cout (Text "[" :: shown r ++ [Text "]"]) ++ on Cerr [Endl]) rows)) /\
     show_numbers s w = (Throw InvalidArgument, w) /\
     filter (fun p => match fst p with Cerr => true | _ => false end) (concat (map (fun r => on Cout (Text "[" :: shown r ++ [Text "]"]) ++ on Cerr [Endl]) rows))
     = repeat (Cerr, Endl) (length rows)).
Proof.
  intros T NT s w; split.
  - intros xs Hs; split; [|unfold show_arrays, forEach_v; rewrite (repr_itemSize _ _ _ Hs); reflexivity].
    unfold show_numbers; etransitivity.
    { eapply (forEach_s_calls _ s xs w _ _ Hs), (calls_out _ (fun x => on Cerr [NumT x; Endl]) xs 0 w); intros; reflexivity. }
    do 2 f_equal; unfold on; rewrite concat_map, map_map; reflexivity.
  - intros k rows Hs Hk; pose proof (repr_rows _ _ _ Hs) as Rr; pose proof (repr_bounds _ _ _ Hs) as Hb; split; [|split].
    + unfold show_arrays.
      eapply (forEach_v_calls _ s k rows w _ _ Hs ltac:(lia)), (calls_out _ (fun r => on Cout (Text "[" :: shown r ++ [Text "]"]) ++ on Cerr [Endl]) rows 0 w).
      intros r i w0 Hr; unfold rows_of_size in Rr; rewrite Forall_forall in Rr; specialize (Rr r Hr).
      unfold mbind; rewrite (C111_array_partial T NT Cerr r w0); [|intros ->; change (len (@nil T)) with 0 in Rr; lia|lia].
      unfold put; rewrite <- app_assoc; reflexivity.
    + unfold show_numbers, forEach_s; rewrite (repr_itemSize _ _ _ Hs); replace (k =? 1) with false by (symmetry; apply Z.eqb_neq; lia); reflexivity.
    + clear; induction rows as [|r rows IH]; [reflexivity|]; cbn [map concat length repeat]; rewrite filter_app, IH.
      assert (C : forall t : list (token T), filter (fun p : stream * token T => match fst p with Cerr => true | _ => false end) (on Cout t) = []) by (induction t; [reflexivity|assumption]).
      rewrite filter_app, C; reflexivity.
Qed.
Print Assumptions C159_display.

(** ** reduce.h *)
Definition sum_to (i : nat) (rows : list (list R)) : R := fold_right Rplus 0%R (map (fun r => nth i r 0%R) rows).
Theorem C159_sums :
  (forall (s : Serie R) xs, repr s 1 (col xs) -> run (@sum_numbers R r_num s) = Ok (fold_right Rplus 0%R xs)) /\
  (forall (s : Serie R) rows, repr s 3 rows ->
     run (@sum_arrays R r_num s 3) = Ok (mk 3 [[sum_to 0 rows; sum_to 1 rows; sum_to 2 rows]] 3)).
Proof.
  assert (F : forall l (a : R), fold_left Rplus l a = (a + fold_right Rplus 0 l)%R).
  { induction l as [|x l IH]; intros a; cbn [fold_left fold_right]; [ring|rewrite IH; ring]. }
  split.
  - intros s xs Hs; unfold sum_numbers.
    pose proof (C23_reduce_fold_left R r_num s xs Rplus 0%R Hs) as E; etransitivity; [exact E|]; f_equal; rewrite F; ring.
  - intros s rows Hs; unfold run, sum_arrays.
    destruct (C23_reduce R r_num unit s tt) as [_ Rv].
    pose proof (repr_rows _ _ _ Hs) as Rr.
    set (cb := fun acc v (_ : Z) => _) in *.
    assert (P : forall l i a b c, Forall (fun r : list R => len r = 3) l ->
      folds cb (enum_from i l) [a; b; c]%R tt [a + sum_to 0 l; b + sum_to 1 l; c + sum_to 2 l]%R tt).
    { induction l as [|r l IH]; intros i a b c H; unfold sum_to; cbn [map fold_right enum_from]; [rewrite !Rplus_0_r; constructor|].
      inversion H as [|? ? Lr H']; subst; destruct r as [|x [|y [|z [|? r]]]]; unfold len in Lr; cbn [length] in Lr; try lia.
      econstructor; [reflexivity|]; cbn [nth].
      change (@n_add R r_num) with Rplus; specialize (IH (i + 1) (a + x)%R (b + y)%R (c + z)%R H'); unfold sum_to in IH.
      rewrite !Rplus_assoc in IH; exact IH. }
    specialize (P rows 0%Z 0%R 0%R 0%R Rr); rewrite !Rplus_0_l in P.
    etransitivity; [apply (f_equal fst), (Rv cb 3 rows [0; 0; 0]%R _ tt Hs P); unfold len; cbn [length]; lia|reflexivity].
Qed.
Print Assumptions C159_sums.

(** ** partition_n.h, zip.h *)
Theorem C159_parts :
  forall (T : Type) (NT : Num T) (x1 x2 x3 x4 x5 x6 x7 x8 x9 x10 x11 x12 a b c d : T),
  partition_n 3 (mk 1 (col [x1; x2; x3; x4; x5; x6; x7; x8; x9; x10]) 3)
  = Ok [mk 1 (col [x1; x2; x3; x4]) 3; mk 1 (col [x5; x6; x7]) 3; mk 1 (col [x8; x9; x10]) 3] /\
  partition_n_multi 2 [mk 1 (col [a; b; c; d]) 3; mk 3 [[x1; x2; x3]; [x4; x5; x6]; [x7; x8; x9]; [x10; x11; x12]] 3]
  = Ok [[mk 1 (col [a; b]) 3; mk 1 (col [c; d]) 3]; [mk 3 [[x1; x2; x3]; [x4; x5; x6]] 3; mk 3 [[x7; x8; x9]; [x10; x11; x12]] 3]].
Proof. intros; split; reflexivity. Qed.
Print Assumptions C159_parts.

Theorem C159_zip :
  forall (T : Type) (NT : Num T) (x1 x2 x3 y1 y2 y3 y4 y5 y6 z1 z2 z3 : T),
  let ss := [mk 1 (col [x1; x2; x3]) 3; mk 2 [[y1; y2]; [y3; y4]; [y5; y6]] 3; mk 1 (col [z1; z2; z3]) 3] in
  let r := mk 4 [[x1; y1; y2; z1]; [x2; y3; y4; z2]; [x3; y5; y6; z3]] 3 in
  zip_series ss = Ok r /\ zipVector ss = Ok r.
Proof. intros; split; reflexivity. Qed.
Print Assumptions C159_zip.

(** ** equals.h *)
Lemma mask3 {T} {NT : Num T} (p : T -> T -> bool) (a b c d e f : T) :
  mask p (mk 1 (col [a; b; c]) 3) (mk 1 (col [d; e; f]) 3)
  = Ok (mk 1 (col [if p a d then n_of_Z 1 else n_of_Z 0; if p b e then n_of_Z 1 else n_of_Z 0; if p c f then n_of_Z 1 else n_of_Z 0]) 3).
Proof. reflexivity. Qed.
Theorem C159_masks :
  (forall (T : Type) (NT : Num T) (a b c d : T), n_eqb a a = true -> n_eqb c c = true -> n_eqb b d = false ->
     equalityMask (mk 1 (col [a; b; c]) 3) (mk 1 (col [a; d; c]) 3) = Ok (mk 1 (col [n_of_Z 1; n_of_Z 0; n_of_Z 1]) 3)) /\
  (forall L : Libm, @approximateEqualityMask F64 (f64_num L) (mk 1 (col [#1; #2; #3]) 3) (mk 1 (col [f64_div #10000001 #(10 ^ 7); #4; #3]) 3) (f64_div #1 #(10 ^ 6))
     = Ok (mk 1 (col [#1; #0; #1]) 3)).
Proof.
  split.
  - intros T NT a b c d A C B; unfold equalityMask; rewrite mask3, A, B, C; reflexivity.
  - intros L; unfold approximateEqualityMask; rewrite mask3.
    set (u := f64_div #10000001 #(10 ^ 7)); set (e := f64_div #1 #(10 ^ 6)).
    assert (W : forall x y : F64, @within F64 (f64_num L) e x y = Bleb (Babs (f64_sub x y)) e) by reflexivity; rewrite !W.
    assert (W1 : Bleb (Babs (f64_sub #1 u)) e = true) by (vm_compute; reflexivity).
    assert (W2 : Bleb (Babs (f64_sub #2 #4)) e = false) by (vm_compute; reflexivity).
    assert (W3 : Bleb (Babs (f64_sub #3 #3)) e = true) by (vm_compute; reflexivity).
    rewrite W1, W2, W3; reflexivity.
Qed.
Print Assumptions C159_masks.

(** ** pipe.h, compose.h *)
Theorem C159_pipe :
  (forall (T : Type) (NT : Num T) (s : Serie T) xs, repr s 1 (col xs) ->
     run (doubled s) = Ok (mk 1 (col (map (fun x => n_mul x (n_of_Z 2)) xs)) 3)) /\
  (forall (D : Type) (f g h : D -> D) x,
     run (compose (map (fun (q : D -> D) y => @ret unit D (q y)) [f; g; h]) x) = Ok (f (g (h x)))).
Proof.
  split.
  - intros T NT s xs Hs; unfold doubled, run; cbn [pipe].
    destruct (C09_map_number T NT unit s tt (map (fun p => n_mul (fst p) (n_of_Z 2)) (enum xs)) tt) as [M _].
    rewrite (M _ xs Hs (calls_pure (fun x _ => n_mul x (n_of_Z 2)) (enum xs) tt)); cbn [fst].
    do 3 f_equal; rewrite <- (map_map fst (fun x => n_mul x (n_of_Z 2))); f_equal.
    unfold enum; generalize 0; clear; induction xs as [|x xs IH]; intros i; cbn [enum_from map]; [reflexivity|rewrite IH; reflexivity].
  - reflexivity.
Qed.
Print Assumptions C159_pipe.

(** ** filter.h, partition.h *)
Lemma filter_enum {A} (p : A -> bool) l : forall i, map fst (filter (fun xi => p (fst xi)) (enum_from i l)) = filter p l.
Proof. induction l as [|x l IH]; intros i; cbn [enum_from filter fst]; [reflexivity|]; destruct (p x); cbn [map fst]; rewrite IH; reflexivity. Qed.
Lemma select_filter {A} (p : A -> bool) l : select l (map p l) = filter p l.
Proof. induction l as [|x l IH]; cbn [select map filter]; [reflexivity|]; destruct (p x); rewrite IH; reflexivity. Qed.
Lemma calls_even (L : Libm) zs : Forall (fun z => - 2 ^ 31 <= z < 2 ^ 31) zs -> forall i,
  calls (fun v (_ : Z) => let! i := lift (@n_to_s32 F64 (f64_num L) v) in @ret unit bool (Z.rem i 2 =? 0)) (enum_from i (map f64_of_Z zs)) tt (map Z.even zs) tt.
Proof.
  induction 1 as [|z zs Hz H IH]; intros i; cbn [map enum_from]; [constructor|]; econstructor; [|apply IH].
  assert (E : @n_to_s32 F64 (f64_num L) #z = Ok z).
  { destruct (f64_of_Z_correct z ltac:(lia)) as (E & F & _); unfold n_to_s32; cbn [n_to_Z f64_num]; rewrite F, (trunc_ok _ _ E); unfold two31.
    replace ((- (2147483648) <=? z) && (z <? 2147483648)) with true by (symmetry; apply andb_true_intro; split; [apply Z.leb_le|apply Z.ltb_lt]; lia); reflexivity. }
  unfold mbind, lift, ret; rewrite E; do 2 f_equal.
  rewrite Zeven_rem; destruct (Z.eqb_spec (Z.rem z 2) 0); reflexivity.
Qed.
Theorem C159_filters :
  (forall (L : Libm) (s : Serie F64) zs, repr s 1 (col (map f64_of_Z zs)) -> Forall (fun z => - 2 ^ 31 <= z < 2 ^ 31) zs ->
     run (@evens F64 (f64_num L) s) = Ok (mk 1 (col (map f64_of_Z (filter Z.even zs))) 3)) /\
  (forall (T : Type) (NT : Num T) (s : Serie T) k rows, repr s k rows -> 1 <= k ->
     let neg r := match r with x :: _ => n_ltb x (n_of_Z 0) | [] => false end in
     run (compressive s) = Ok (mk k (filter neg rows) 3, mk k (filter (fun r => negb (neg r)) rows) 3)).
Proof.
  split.
  - intros L s zs Hs Hz; unfold run, evens.
    destruct (C15_filter F64 (f64_num L) unit s tt (map Z.even zs) tt) as [F _].
    rewrite (F _ _ Hs (calls_even L zs Hz 0)); cbn [fst]; do 3 f_equal; clear.
    induction zs as [|z zs IH]; cbn [map select filter]; [reflexivity|]; destruct (Z.even z); cbn [map]; rewrite IH; reflexivity.
  - intros T NT s k rows Hs Hk neg; unfold run, compressive.
    pose proof (repr_rows _ _ _ Hs) as Rr.
    destruct (C19_partition T NT unit s tt (map neg rows) tt) as [_ F].
    destruct (F (fun v _ => lift (let* x := rd v 0 in Ok (n_ltb x (n_of_Z 0)))) k rows Hs) as (m & u & E & _ & _ & Em & Eu).
    { unfold enum; match goal with |- calls ?f _ _ _ _ => set (cb := f) end; generalize 0 at 1; clear - Rr Hk; induction Rr as [|r rows Lr Rr IH]; intros i; cbn [map enum_from]; [constructor|]; econstructor; [|apply IH].
      destruct r as [|x r]; [change (len (@nil T)) with 0 in Lr; lia|reflexivity]. }
    rewrite E; cbn [fst]; rewrite Em, Eu, map_map, !select_filter; reflexivity.
Qed.
Print Assumptions C159_filters.

(** the data of the comments *)
Example C159_ex :
  repr (mk 1 (col [#1; #2; #3; #4; #5]) 3) 1 (col (map f64_of_Z [1; 2; 3; 4; 5])) /\ Forall (fun z => - 2 ^ 31 <= z < 2 ^ 31) [1; 2; 3; 4; 5] /\
  filter Z.even [1; 2; 3; 4; 5] = [2; 4] /\
  repr (mk 3 [[1; 2; 3]; [4; 5; 6]]%R 3) 3 [[1; 2; 3]; [4; 5; 6]]%R /\ sum_to 0 [[1; 2; 3]; [4; 5; 6]]%R = 5%R /\
  @n_eqb F64 F64N #1 #1 = true /\ @n_eqb F64 F64N #2 #4 = false.
Proof.
  split; [repr_ex|]; split; [repeat (apply Forall_cons; [lia|]); apply Forall_nil|]; split; [reflexivity|]; split; [repr_ex|]; split.
  - unfold sum_to; cbn [map nth fold_right]; lra.
  - split; vm_compute; reflexivity.
Qed.
