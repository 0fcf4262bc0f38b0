(** * C111 - C113: what is written, and to which stream. *)
From Verif Require Import Base Num Serie Spec BaseFacts SerieFacts Functional FunctionalFacts Utils UtilsFacts Streams
  F64 F64Facts Props_Functional Props_Sort.
From Flocq Require Import IEEE754.BinarySingleNaN.
From Coq Require String.
Import String.StringSyntax.
Open Scope Z_scope.

Ltac Zify.zify_post_hook ::= Z.div_mod_to_equations.
Opaque f64_of_Z.
#[local] Existing Instance F64N.

(** the tokens [t], all on the stream [o] *)
Definition on {T} (o : stream) (t : list (token T)) : Out T := map (pair o) t.
(** numbers separated by commas *)
Definition shown {T} (xs : list T) : list (token T) := join [Text ", "] (map (fun x => [NumT x]) xs).

Section Lemmas.
  Context {T : Type} {NT : Num T}.

  Lemma on_app o (a b : list (token T)) : on o (a ++ b) = on o a ++ on o b.
  Proof. apply map_app. Qed.

  Lemma loop_put {A} (f : A -> M (Out T) unit) (g : A -> Out T) l : forall w,
    (forall x w, In x l -> f x w = (Ok tt, w ++ g x)) ->
    loop f l w = (Ok tt, w ++ concat (map g l)).
  Proof.
    unfold loop; induction l as [|x l IH]; intros w Hf; cbn [foldM map concat]; [rewrite app_nil_r; reflexivity|].
    unfold mbind; rewrite Hf by (left; reflexivity).
    rewrite IH by (intros; apply Hf; right; assumption); rewrite app_assoc; reflexivity.
  Qed.

  (** the loop over all elements but the last, followed by the last *)
  Lemma all_but_last (o : stream) (v : list T) n w : v <> [] -> n = len v - 1 ->
    (let! _ := loop (fun j => let! x := lift (rd v j) in put o [NumT x; Text ", "]) (iota n) in
     let! x := lift (rd v n) in put o [NumT x; Text "]"]) w
    = (Ok tt, w ++ on o (shown v ++ [Text "]"])).
  Proof.
    intros Hv Hn; subst n.
    destruct (exists_last Hv) as (u & y & E); subst v; clear Hv.
    assert (Hl : len (u ++ [y]) - 1 = len u) by (rewrite len_app; change (len [y]) with 1; lia).
    rewrite Hl; unfold mbind at 1.
    assert (L : forall w, loop (fun j => let! x := lift (rd (u ++ [y]) j) in put o [NumT x; Text ", "]) (iota (len u)) w
                = (Ok tt, w ++ on o (concat (map (fun x => [NumT x; Text ", "]) u)))).
    { rewrite iota_len.
      assert (G : forall pre post rest, u ++ [y] = pre ++ post ++ rest -> forall w,
        loop (fun j => let! x := lift (rd (u ++ [y]) j) in put o [NumT x; Text ", "]) (seqZ (length pre) (length post)) w
        = (Ok tt, w ++ on o (concat (map (fun x => [NumT x; Text ", "]) post)))).
      { intros pre post; revert pre; induction post as [|z post IH]; intros pre rest E w0.
        - cbn; rewrite app_nil_r; reflexivity.
        - cbn [length]; rewrite seqZ_S; unfold loop; cbn [foldM]; unfold mbind at 1 2, lift.
          rewrite (rd_nat _ (length pre) z) by (rewrite E, nth_error_app2, Nat.sub_diag by lia; reflexivity).
          unfold put at 1.
          specialize (IH (pre ++ [z]) rest ltac:(rewrite E, <- app_assoc; reflexivity)
                         (w0 ++ map (pair o) [NumT z; Text ", "])).
          rewrite app_length, Nat.add_1_r in IH; unfold loop, lift in IH; rewrite IH.
          cbn [map concat]; rewrite on_app; unfold on; rewrite <- app_assoc; reflexivity. }
      intros w0; exact (G [] u [y] eq_refl w0). }
    rewrite L; clear L; unfold mbind, lift, len.
    rewrite (rd_nat _ (length u) y) by (rewrite nth_error_app2, Nat.sub_diag by lia; reflexivity).
    unfold put, shown; rewrite map_app; cbn [map]; rewrite join_last, map_map, <- !app_assoc.
    do 2 f_equal; rewrite on_app; unfold on; do 2 f_equal.
  Qed.

  Lemma insert_values_ok (v : list T) w : v <> [] -> len v <= two32 ->
    insert_values v w = (Ok tt, w ++ on Cerr (shown v ++ [Text "]"])).
  Proof.
    intros Hv Hl; unfold insert_values.
    assert (0 < len v) by (destruct v; [congruence|rewrite len_cons; pose proof (len_nonneg v); lia]).
    unfold two32 in *; rewrite u64_small by lia.
    destruct (Z.leb_spec 4294967296 (len v - 1)); [lia|].
    apply all_but_last; [exact Hv|reflexivity].
  Qed.
End Lemmas.

(** ** C111: operator<< *)

(** what operator<< on a Serie writes: a header, then the whole storage, always to std::cerr *)
Definition serie_text {T} (s : Serie T) : list (token T) :=
  [Text "Serie:"; Endl; Text "  itemSize : "; IntT (u32 (itemSize_ s)); Endl; Text "  count    : "; IntT (count_ s); Endl;
   Text "  dimension: "; IntT (dimension_ s); Endl]
  ++ (if count_ s =? 0 then [Text "  values   : []"] else Text "  values   : [" :: shown (s_ s) ++ [Text "]"]).

(** the storage is not empty when there are items, and its size does not exceed 2^32 *)
Definition showable {T} (s : Serie T) : Prop :=
  0 <= count_ s /\ (0 < count_ s -> s_ s <> [] /\ len (s_ s) <= 4294967296).

Theorem C111_array_partial :
  forall (T : Type) (NT : Num T) (o : stream) (a : list T) w, a <> [] -> len a < 18446744073709551616 ->
  insert_array o a w = (Ok o, w ++ on Cout (Text "[" :: shown a ++ [Text "]"])).
Proof.
  intros T NT o a w Ha Hl; unfold insert_array; unfold mbind at 1, put at 1.
  assert (0 < len a) by (destruct a; [congruence|rewrite len_cons; pose proof (len_nonneg a); lia]).
  destruct (Z.ltb_spec 0 (len a)); [|lia].
  rewrite u64_small by lia; unfold mbind at 1.
  rewrite (all_but_last Cout a (len a - 1) _ Ha eq_refl); unfold ret.
  rewrite <- app_assoc; reflexivity.
Qed.
Print Assumptions C111_array_partial.

Theorem C111_array_empty_refuted :
  forall (T : Type) (NT : Num T) (o : stream) w,
  insert_array o (@nil T) w = (Ok o, w ++ on Cout [Text "["; Text "[]"]) /\
  insert_array o (@nil T) w <> (Ok o, w ++ on Cout [Text "["; Text "]"]) /\
  insert_array o (@nil T) w <> (Ok o, w ++ on Cout [Text "[]"]).
Proof.
  intros T NT o w.
  assert (E : insert_array o (@nil T) w = (Ok o, w ++ on Cout [Text "["; Text "[]"])).
  { unfold insert_array, mbind, put, ret; change (0 <? len (@nil T)) with false; cbv iota beta.
    rewrite <- app_assoc; reflexivity. }
  split; [exact E|]; rewrite E; split; intros C; injection C as C; apply app_inv_head in C; discriminate C.
Qed.
Print Assumptions C111_array_empty_refuted.

Theorem C111_strings_partial :
  forall (T : Type) (NT : Num T) (o : stream) (a : list String.string) w,
  insert_strings (T := T) o a w
  = (Ok o, w ++ on Cerr (concat (map (fun v => [Text "  "; Text v; Endl]) a) ++ [Endl])).
Proof.
  intros T NT o a w; unfold insert_strings; unfold mbind at 1.
  rewrite (loop_put _ (fun v => on Cerr [Text "  "; Text v; Endl])) by reflexivity.
  unfold mbind, put, ret; rewrite <- app_assoc, on_app; do 3 f_equal.
  unfold on; rewrite concat_map, map_map; reflexivity.
Qed.
Print Assumptions C111_strings_partial.

Theorem C111_serie_partial :
  forall (T : Type) (NT : Num T) (o : stream) (s : Serie T) w, showable s ->
  insert_serie o s w = (Ok o, w ++ on Cerr (serie_text s)).
Proof.
  intros T NT o s w (Hc & Hs); unfold insert_serie; unfold mbind at 1, put at 1.
  unfold serie_text, count, itemSize, dimension.
  destruct (Z.ltb_spec 0 (count_ s)); destruct (Z.eqb_spec (count_ s) 0); try lia.
  - destruct (Hs ltac:(assumption)) as [Hn Hl].
    unfold mbind at 1 2, put at 1; rewrite insert_values_ok by assumption; unfold ret.
    rewrite <- !app_assoc; reflexivity.
  - unfold mbind, put, ret; rewrite <- app_assoc; reflexivity.
Qed.
Print Assumptions C111_serie_partial.

(** every Serie with items of size 1 or more is showable *)
Theorem C111_valid_showable :
  forall (T : Type) (NT : Num T) (s : Serie T) k rows, repr s k rows -> 1 <= k -> s_ s = concat rows -> showable s.
Proof.
  intros T NT s k rows Hs Hk He.
  pose proof (repr_rows _ _ _ Hs) as Hr; pose proof (len_nonneg rows).
  destruct Hs as (_ & Hc & _ & _ & _ & _ & Hm); split; [lia|]; intros Hp; rewrite He.
  rewrite (len_concat k) by exact Hr.
  split; [|nia].
  intros E; pose proof (len_concat k rows Hr) as L; rewrite E in L; change (len []) with 0 in L; nia.
Qed.
Print Assumptions C111_valid_showable.

(** otherwise it is undefined: items without a storage *)
Theorem C111_serie_undefined :
  forall (T : Type) (NT : Num T) (o : stream) (s : Serie T) w, 0 < count_ s ->
  s_ s = [] \/ 4294967296 < len (s_ s) < 18446744073709551616 ->
  fst (insert_serie o s w) = UB.
Proof.
  intros T NT o s w Hc Hs; unfold insert_serie, count; unfold mbind at 1, put at 1.
  destruct (Z.ltb_spec 0 (count_ s)); [|lia]; unfold mbind, put, insert_values, asArray.
  assert (E : two32 <=? u64 (len (s_ s) - 1) = true).
  { apply Z.leb_le; unfold two32, u64, two64; destruct Hs as [->|Hs]; [vm_compute; discriminate|].
    rewrite Z.mod_small by lia; lia. }
  rewrite E; reflexivity.
Qed.
Print Assumptions C111_serie_undefined.

(** the numbers of Series and the line ends go to [o], the Series themselves to std::cerr *)
Theorem C111_series_partial :
  forall (T : Type) (NT : Num T) (o : stream) (ss : list (Serie T)) w, Forall showable ss ->
  insert_series o ss w
  = (Ok o, w ++ on o [IntT (len ss); Text " series:"; Endl]
             ++ concat (map (fun s => on Cerr (serie_text s) ++ on o [Endl]) ss)).
Proof.
  intros T NT o ss w Hs; unfold insert_series; unfold mbind at 1, put at 1; unfold mbind at 1.
  rewrite (loop_put _ (fun s => on Cerr (serie_text s) ++ on o [Endl])).
  - unfold ret; rewrite <- app_assoc; reflexivity.
  - intros s w0 Hin; rewrite Forall_forall in Hs; unfold mbind.
    rewrite (C111_serie_partial T NT o s w0 (Hs s Hin)); unfold put; rewrite <- app_assoc; reflexivity.
Qed.
Print Assumptions C111_series_partial.

(** the full statement: inserting into [o] writes to [o] and to nothing else *)
Definition C111_to_given {T X} (insert : stream -> X -> M (Out T) stream) : Prop :=
  forall o x w r w', insert o x w = (Ok r, w') -> exists t, w' = w ++ on o t.

Theorem C111_stream_refuted :
  ~ C111_to_given (T := F64) insert_array /\ ~ C111_to_given (T := F64) insert_strings /\
  ~ C111_to_given (T := F64) insert_serie /\ ~ C111_to_given (T := F64) insert_series.
Proof.
  repeat split; intros C.
  - destruct (C (Other 0) [#1] [] (Other 0) _ (C111_array_partial _ _ _ [#1] [] ltac:(discriminate) ltac:(reflexivity)))
      as (t & E); destruct t; discriminate E.
  - destruct (C (Other 0) [] [] (Other 0) _ (C111_strings_partial _ _ _ [] [])) as (t & E); destruct t; discriminate E.
  - assert (H : showable (serie_default : Serie F64)) by (split; cbn; lia).
    destruct (C (Other 0) serie_default [] (Other 0) _ (C111_serie_partial _ _ _ _ [] H)) as (t & E).
    destruct t; discriminate E.
  - assert (H : Forall showable [serie_default : Serie F64]) by (apply Forall_cons; [split; cbn; lia|apply Forall_nil]).
    destruct (C (Other 0) [serie_default] [] (Other 0) _ (C111_series_partial _ _ _ _ [] H)) as (t & E).
    destruct t as [|? [|? [|? [|? t]]]]; discriminate E.
Qed.
Print Assumptions C111_stream_refuted.

(** inserting an Array into std::cout, or Strings or a Serie into std::cerr, is as intended *)
Theorem C111_own_stream :
  forall (T : Type) (NT : Num T) w,
  (forall a : list T, a <> [] -> len a < 18446744073709551616 ->
     exists t, insert_array Cout a w = (Ok Cout, w ++ on Cout t)) /\
  (forall a, exists t, insert_strings (T := T) Cerr a w = (Ok Cerr, w ++ on Cerr t)) /\
  (forall s : Serie T, showable s -> exists t, insert_serie Cerr s w = (Ok Cerr, w ++ on Cerr t)) /\
  (forall ss : list (Serie T), Forall showable ss -> exists t, insert_series Cerr ss w = (Ok Cerr, w ++ on Cerr t)).
Proof.
  intros T NT w; repeat split.
  - intros a Ha Hl; eexists; apply (C111_array_partial T NT); assumption.
  - intros a; eexists; apply (C111_strings_partial T NT).
  - intros s Hs; eexists; apply (C111_serie_partial T NT); assumption.
  - intros ss Hs; rewrite (C111_series_partial T NT Cerr ss w Hs).
    exists ([IntT (len ss); Text " series:"; Endl] ++ concat (map (fun s => serie_text s ++ [Endl]) ss)).
    rewrite on_app; do 3 f_equal; unfold on; rewrite concat_map, map_map.
    f_equal; apply map_ext; intros s; symmetry; apply map_app.
Qed.
Print Assumptions C111_own_stream.

Example C111_witness :
  let s := mk 2 [[#1; #2]; [#3; #4]] 3 in
  showable s /\
  insert_series (Other 7) [s; serie_default] []
  = (Ok (Other 7),
     [(Other 7, IntT 2); (Other 7, Text " series:"); (Other 7, Endl);
      (Cerr, Text "Serie:"); (Cerr, Endl); (Cerr, Text "  itemSize : "); (Cerr, IntT 2); (Cerr, Endl);
      (Cerr, Text "  count    : "); (Cerr, IntT 2); (Cerr, Endl); (Cerr, Text "  dimension: "); (Cerr, IntT 3); (Cerr, Endl);
      (Cerr, Text "  values   : ["); (Cerr, NumT #1); (Cerr, Text ", "); (Cerr, NumT #2); (Cerr, Text ", ");
      (Cerr, NumT #3); (Cerr, Text ", "); (Cerr, NumT #4); (Cerr, Text "]"); (Other 7, Endl);
      (Cerr, Text "Serie:"); (Cerr, Endl); (Cerr, Text "  itemSize : "); (Cerr, IntT 0); (Cerr, Endl);
      (Cerr, Text "  count    : "); (Cerr, IntT 0); (Cerr, Endl); (Cerr, Text "  dimension: "); (Cerr, IntT 3); (Cerr, Endl);
      (Cerr, Text "  values   : []"); (Other 7, Endl)]).
Proof.
  cbv zeta; split; [|reflexivity].
  apply (C111_valid_showable F64 _ _ 2 [[#1; #2]; [#3; #4]]); [repr_ex|lia|reflexivity].
Qed.
Example C111_undefined_witness : fst (insert_serie Cerr (serie_n 0 5 3 : Serie F64) []) = UB.
Proof. apply (C111_serie_undefined F64 F64N); [reflexivity|left; reflexivity]. Qed.

(** ** C112: dump *)
Theorem C112_dump_partial :
  forall (T : Type) (NT : Num T) (s : Serie T) k rows w, repr s k rows -> k <> 1 ->
  dump s w = (Ok tt, w ++ on Cerr (concat (map (fun p => [IntT (snd p); Text ": "]
                                                  ++ concat (map (fun x => [NumT x; Text " "]) (fst p)) ++ [Endl]) (enum rows))
                                   ++ [Endl])).
Proof.
  intros T NT s k rows w Hs Hk; unfold dump, forEach_v.
  rewrite (repr_itemSize _ _ _ Hs), (repr_count _ _ _ Hs); destruct (Z.eqb_spec k 1); [lia|].
  set (cb := fun (t : list T) (i : Z) => _).
  set (text := fun p : list T * Z => [IntT (snd p); Text ": "] ++ concat (map (fun x => [NumT x; Text " "]) (fst p)) ++ [Endl]).
  assert (Hcb : forall t i w, cb t i w = (Ok tt, w ++ on Cerr (text (t, i)))).
  { intros t i w0; unfold cb; unfold mbind at 1, put at 1; unfold mbind at 1.
    rewrite (loop_put _ (fun x => on Cerr [NumT x; Text " "])) by reflexivity.
    unfold put, text; cbn [fst snd]; rewrite !on_app, <- !app_assoc; do 4 f_equal.
    unfold on; rewrite concat_map, map_map; reflexivity. }
  unfold mbind at 1.
  assert (E : forall l w, mapM (fun p => cb (fst p) (snd p)) l w = (Ok (map (fun _ => tt) l), w ++ on Cerr (concat (map text l)))).
  { induction l as [|[t i] l IH]; intros w0; [cbn; rewrite app_nil_r; reflexivity|].
    cbn [mapM]; unfold mbind; cbn [fst snd]; rewrite Hcb, IH; unfold ret; cbn [map concat].
    rewrite on_app, app_assoc; reflexivity. }
  unfold mbind at 1; rewrite each_reads with (items := rows) by (apply (reads_array s k rows Hs)).
  rewrite E; unfold ret, put; rewrite on_app, <- app_assoc; reflexivity.
Qed.
Print Assumptions C112_dump_partial.

(** the full statement fails: a scalar Serie is not shown at all, an exception is thrown *)
Theorem C112_scalar_refuted :
  forall (T : Type) (NT : Num T) (s : Serie T) xs w, repr s 1 (col xs) -> dump s w = (Throw InvalidArgument, w).
Proof.
  intros T NT s xs w Hs; unfold dump, forEach_v; rewrite (repr_itemSize _ _ _ Hs); reflexivity.
Qed.
Print Assumptions C112_scalar_refuted.

Example C112_witness :
  let s := mk 2 [[#1; #2]; [#3; #4]] 3 in
  repr s 2 [[#1; #2]; [#3; #4]] /\
  dump s [] = (Ok tt, on Cerr [IntT 0; Text ": "; NumT #1; Text " "; NumT #2; Text " "; Endl;
                               IntT 1; Text ": "; NumT #3; Text " "; NumT #4; Text " "; Endl; Endl]) /\
  dump (mk 1 (col [#1]) 3) [] = (Throw InvalidArgument, []).
Proof. split; [repr_ex|split; reflexivity]. Qed.

(** ** C113: print(Array), info, warning, error, log *)
Theorem C113_print_array :
  forall (T : Type) (NT : Num T) (v : list T) w, len v <= 4294967296 ->
  print_values v w = (Ok tt, w ++ on Cerr (if len v =? 0 then [Text "[]"] else Text "[" :: shown v ++ [Text "]"])).
Proof.
  intros T NT v w Hl; unfold print_values; pose proof (len_nonneg v).
  destruct (Z.ltb_spec 0 (len v)); destruct (Z.eqb_spec (len v) 0); try lia.
  - unfold mbind, put; rewrite insert_values_ok; [|intros ->; change (len (@nil T)) with 0 in *; lia|exact Hl].
    rewrite <- app_assoc; reflexivity.
  - reflexivity.
Qed.
Print Assumptions C113_print_array.

Theorem C113_messages :
  forall (T : Type) (NT : Num T) msg w,
  info (T := T) msg w = (Ok tt, w ++ on Cout [Text "Info : "; Text msg; Endl]) /\
  warning (T := T) msg w = (Ok tt, w ++ on Cerr [Text "Warn : "; Text msg; Endl]) /\
  error (T := T) msg w = (Ok tt, w ++ on Cerr [Text "Error: "; Text msg; Endl]).
Proof. intros; repeat split. Qed.
Print Assumptions C113_messages.

Theorem C113_log :
  forall (T : Type) (NT : Num T) (arg : token T) args w,
  log arg args w = (Ok tt, w ++ on Cout (join [Text " "] (map (fun a => [a]) (arg :: args)))).
Proof.
  intros T NT arg args w; unfold log; unfold mbind, put at 1.
  rewrite (loop_put _ (fun a => on Cout [Text " "; a])) by reflexivity.
  rewrite <- app_assoc; do 2 f_equal; cbn [map].
  assert (E : forall x, on Cout (join [Text " "] ([x] :: map (fun a => [a]) args))
              = (Cout, x) :: concat (map (fun a => on Cout [Text " "; a]) args)).
  { induction args as [|y args IH]; intros x; [reflexivity|].
    change (on Cout (join [Text " "] ([x] :: map (fun a => [a]) (y :: args))))
      with ((Cout, x) :: (Cout, Text " ") :: on Cout (join [Text " "] ([y] :: map (fun a => [a]) args))).
    rewrite IH; reflexivity. }
  rewrite E; reflexivity.
Qed.
Print Assumptions C113_log.

Example C113_witness :
  print_values [#1; #2] [] = (Ok tt, on Cerr [Text "["; NumT #1; Text ", "; NumT #2; Text "]"]) /\
  print_values (@nil F64) [] = (Ok tt, on Cerr [Text "[]"]) /\
  log (Text "x") [NumT #1; IntT 2] [] = (Ok tt, on Cout [Text "x"; Text " "; NumT #1; Text " "; IntT 2]).
Proof. repeat split. Qed.
