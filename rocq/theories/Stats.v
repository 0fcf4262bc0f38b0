(** * src/functional/stats: mean, covariance, quantile, outliers, bins. *)
From Verif Require Import Base Num Serie Functional Utils Mathf.
Open Scope Z_scope.
Open Scope num_scope.

(** types.h:39-43 [Tuple]: a number, or an array (the other member is left unset) *)
Inductive tuple (T : Type) : Type :=
| Number (x : T)
| Vector (a : list T).
Arguments Number {T} x.
Arguments Vector {T} a.

Section Stats.
  Context {T : Type} `{Num T}.

  (** mean.cxx:47-49: [b[j] += a[j]] for every [j < a.size()]; [b] is captured by reference and is the state *)
  Definition accumulate (a : list T) (_ : Z) : M (list T) unit :=
    fun b => match upd_each (len a) (fun j x => let* y := rd a j in Ok (x [+] y)) b with
             | Ok b' => (Ok tt, b')
             | Throw e => (Throw e, b)
             | UB => (UB, b)
             end.

  (** mean.cxx:32-58; [uint32_t count] is converted to double in the division *)
  Definition mean (s : Serie T) : outcome (tuple T) :=
    if itemSize s =? 1 then
      let* total := run (reduce_s (fun prev cur _ => ret (prev [+] cur)) s (n_of_Z 0)) in
      Ok (Number (total [/] n_of_Z (count s)))
    else
      let (r, b) := forEach_v accumulate s (createArray (itemSize s) (n_of_Z 0)) in
      let* _ := r in
      Ok (Vector (map (fun v => v [/] n_of_Z (count s)) b)).

  (** [mean(x).number] *)
  Definition number (t : tuple T) : outcome T :=
    match t with Number x => Ok x | Vector _ => UB end.

  (** covariance.cxx:34-54 *)
  Definition covariance (x y : Serie T) : outcome T :=
    if negb (count x =? count y) then Throw InvalidArgument
    else if negb (itemSize x =? 1) then Throw InvalidArgument
    else if negb (itemSize y =? 1) then Throw InvalidArgument
    else
      let N := n_of_Z (size x) in
      let* mx := mean x in
      let* xb := number mx in
      let* my := mean y in
      let* yb := number my in
      let* dx := sub_value x xb in
      let* dy := sub_value y yb in
      let* p := mult_serie dx dy in
      run (reduce_s (fun acc value _ => ret (acc [+] value [/] N)) p (n_of_Z 0)).

  (** bins.cxx:50-61: the lambda; [i < 0] never holds for a [uint32_t].  [b] is captured by reference and is the state *)
  Definition put_in_bin (nb : Z) (start size : T) (v : T) (_ : Z) : M (list T) unit :=
    fun b =>
      match (let* i := n_to_u32 (n_trunc ((v [-] start) [/] size)) in
             let i := if nb <=? i then nb - 1 else i in
             if nb <=? i then Throw InvalidArgument
             else let* x := rd b i in wr b i (x [+] n_of_Z 1)) with
      | Ok b' => (Ok tt, b')
      | Throw e => (Throw e, b)
      | UB => (UB, b)
      end.
  (** bins.cxx:37-64; [nb] is a 32 bit unsigned number *)
  Definition bins_between (s : Serie T) (nb : Z) (start stop : T) : outcome (Serie T) :=
    if negb (itemSize s =? 1) then Throw InvalidArgument
    else if nb <? 1 then Ok serie_default
    else
      let size := (stop [-] start) [/] n_of_Z nb in
      let (r, b) := forEach_s (put_in_bin nb start size) s (createArray nb (n_of_Z 0)) in
      let* _ := r in
      serie_of 1 b 3.
  (** bins.cxx:32-35 *)
  Definition bins (s : Serie T) (nb : Z) : outcome (Serie T) :=
    let* mm := minMax s in
    let* lo := rd (fst mm) 0 in
    let* hi := rd (snd mm) 0 in
    bins_between s nb lo hi.
End Stats.

Section Quantile.
  Context {T : Type} `{Num T} (sorter : Sorter).

  (** quantile.cxx:35-57; [sorted.size() - 1] is a [size_t], converted to double by the multiplication *)
  Definition quantile (s : Serie T) (q : T) : outcome T :=
    if negb (isValid s) then Throw InvalidArgument
    else if negb (itemSize s =? 1) then Throw InvalidArgument
    else if n_ltb q (n_of_Z 0) || n_ltb (n_of_Z 1) q then Throw InvalidArgument
    else
      let* newSerie := sort_default sorter s in
      let sorted := asArray newSerie in
      let pos := n_of_Z (u64 (len sorted - 1)) [*] q in
      let base := n_floor pos in
      let rest := pos [-] base in
      let* next := n_to_u32 (base [+] n_of_Z 1) in
      let* here := n_to_u32 base in
      if next <? len sorted then
        let* a := rd sorted here in
        let* b := rd sorted next in
        Ok (a [+] rest [*] (b [-] a))
      else rd sorted here.

  (** quantile.cxx:59-65 *)
  Definition q25 (s : Serie T) : outcome T := quantile s (n_ratio 1 4).
  Definition q50 (s : Serie T) : outcome T := quantile s (n_ratio 1 2).
  Definition q75 (s : Serie T) : outcome T := quantile s (n_ratio 3 4).
  Definition IQR (s : Serie T) : outcome T :=
    let* a := quantile s (n_ratio 3 4) in
    let* b := quantile s (n_ratio 1 4) in
    Ok (a [-] b).

  (** quantile.cxx:106-111 [__ouliers__] *)
  Definition fences (s : Serie T) (mustache : T) : outcome (T * T) :=
    let* Q25 := q25 s in
    let* Q75 := q75 s in
    let iqr := Q75 [-] Q25 in
    Ok (Q25 [-] mustache [*] iqr, Q75 [+] mustache [*] iqr).

  (** quantile.cxx:67-74 (cut is filter), 81-86, 95-102.  [>=] and [>] as in IEEE-754: false for NaN *)
  Definition outliers (s : Serie T) (mustache : T) : outcome (Serie T) :=
    let* o := fences s mustache in
    run (filter_s (fun v _ => ret (n_ltb v (fst o) || n_ltb (snd o) v)) s).
  Definition isOutliers (s : Serie T) (mustache : T) : outcome (Serie T) :=
    let* o := fences s mustache in
    run (check_s s (fun v _ => ret (n_ltb v (fst o) || n_ltb (snd o) v))).
  Definition notOutliers (s : Serie T) (mustache : T) : outcome (Serie T) :=
    let* o := fences s mustache in
    run (filter_s (fun v _ => ret (n_leb (fst o) v && n_leb v (snd o))) s).
End Quantile.
