(** * include/dataframe/functional/utils: concat, partition_n, zip, unzip, sort, print.

    [cut] (cut.h:33-35) and [apply] (apply.h:33-36) only rename filter and map and have no definition. *)
From Verif Require Import Base Num Serie Functional.
From Coq Require String.
Import String.StringSyntax.
Delimit Scope string_scope with string.

Section Utils.
  Context {T : Type} `{Num T}.

  (** concat.h:36-63 (and 65-68, which builds the vector).  [utils::countAndCheck()] on line 44 has no argument and does
      nothing. *)
  Definition concat_check (ss : list (Serie T)) (itemSize0 : Z) : outcome Z :=
    foldO (fun totalCount s =>
             if negb (isValid s) || negb (itemSize s =? itemSize0) then Throw InvalidArgument
             else Ok (u32 (totalCount + count s))) ss 0.
  Definition concat_series (ss : list (Serie T)) : outcome (Serie T) :=
    match ss with
    | [] => Throw InvalidArgument
    | s0 :: _ =>
        let* totalCount := concat_check ss (itemSize s0) in
        let* st := foldO (fun st s => put_next_all s st) ss
                         (serie_n (s32 (itemSize s0)) totalCount 3, 0) in
        Ok (fst st)
    end.

  (** partition_n.h:55-58, 102-105: [Serie part(s.itemSize(), size)] and the copy loop *)
  Definition copy_range (s : Serie T) (start size : Z) : outcome (Serie T) :=
    foldO (fun part j => let* v := get_array s (u32 (start + j)) in set_array part j v)
          (iota size) (serie_n (s32 (itemSize s)) size 3).

  Definition part_size (base_size remainder i : Z) : Z := u32 (base_size + (if i <? remainder then 1 else 0)).

  (** partition_n.h:44-67: one Serie; [total / n] with n = 0 is undefined *)
  Fixpoint parts_loop (s : Serie T) (total base_size remainder : Z) (l : list Z) (start : Z)
      (partitions : list (Serie T)) : outcome (list (Serie T)) :=
    match l with
    | [] => Ok partitions
    | i :: r =>
        let size := part_size base_size remainder i in
        let* part := copy_range s start size in
        let start' := u32 (start + size) in
        let partitions' := partitions ++ [part] in
        if total <=? start' then Ok partitions'
        else parts_loop s total base_size remainder r start' partitions'
    end.
  Definition partition_n (n : Z) (s : Serie T) : outcome (list (Serie T)) :=
    if n =? 0 then UB
    else parts_loop s (count s) (count s / n) (count s mod n) (iota n) 0 [].

  (** partition_n.h:84-115: several Series; no early end of the loop *)
  Definition partition_one (n base_size remainder : Z) (s : Serie T) : outcome (list (Serie T)) :=
    let* st := foldO (fun (st : Z * list (Serie T)) i =>
                        let size := part_size base_size remainder i in
                        let* part := copy_range s (fst st) size in
                        Ok (u32 (fst st + size), snd st ++ [part]))
                     (iota n) (0, []) in
    Ok (snd st).
  Definition partition_n_multi (n : Z) (ss : list (Serie T)) : outcome (list (list (Serie T))) :=
    if n =? 0 then Throw InvalidArgument
    else
      let* total := countAndCheck ss in
      mapO (partition_one n (total / n) (total mod n)) ss.

  (** zip.h:69-83, 134-147: copy the items of [s] to the columns from [itemIndex] on; [n] is the bound of the
      loop over the items *)
  Definition zip_copy (n : Z) (s : Serie T) (itemIndex : Z) (result : Serie T) : outcome (Serie T) :=
    foldO (fun result i =>
             if itemSize s =? 1 then
               let* x := scalar s i in
               setScalar result (u32 (u32 (i * itemSize result) + itemIndex)) x
             else
               let* values := value s i in
               foldO (fun result j =>
                        let* x := rd values j in
                        setScalar result (u32 (u32 (u32 (i * itemSize result) + itemIndex) + j)) x)
                     (iota (itemSize s)) result)
          (iota n) result.

  (** zip.h:50-90; the empty pack does not compile (UB here) *)
  Definition zip_series (ss : list (Serie T)) : outcome (Serie T) :=
    if negb (forallb isValid ss) then Throw InvalidArgument
    else
      let* n := countAndCheck ss in
      let totalItemSize := u32 (fold_right Z.add 0 (map itemSize ss)) in
      let* st := foldO (fun (st : Serie T * Z) s =>
                          let* r := zip_copy (count s) s (snd st) (fst st) in
                          Ok (r, u32 (snd st + itemSize s)))
                       ss (serie_n (s32 totalItemSize) n 3, 0) in
      Ok (fst st).

  (** zip.h:111-153 *)
  Definition zipVector (ss : list (Serie T)) : outcome (Serie T) :=
    match ss with
    | [] => Throw InvalidArgument
    | _ =>
        if negb (forallb isValid ss) then Throw InvalidArgument
        else
          let* n := countAndCheck ss in
          let totalItemSize := u32 (fold_right Z.add 0 (map itemSize ss)) in
          let* st := foldO (fun (st : Serie T * Z) s =>
                              let* r := zip_copy n s (snd st) (fst st) in
                              Ok (r, u32 (snd st + itemSize s)))
                           ss (serie_n (s32 totalItemSize) n 3, 0) in
          Ok (fst st)
    end.

  (** unzip.h:38-73; [itemSizes] are [uint32_t]; [std::accumulate(.., 0u)] adds in [unsigned] *)
  Definition unzip_one (zipped : Serie T) (currentIndex itemSize1 : Z) : outcome (Serie T) :=
    foldO (fun s i =>
             if itemSize1 =? 1 then
               let* x := scalar zipped (u32 (u32 (i * itemSize zipped) + currentIndex)) in
               setScalar s i x
             else
               let* values := mapO (fun j => scalar zipped (u32 (u32 (u32 (i * itemSize zipped) + currentIndex) + j)))
                                   (iota itemSize1) in
               setValue s i values)
          (iota (count zipped)) (serie_n (s32 itemSize1) (count zipped) 3).
  Definition unzip (zipped : Serie T) (itemSizes : list Z) : outcome (list (Serie T)) :=
    match itemSizes with
    | [] => Throw InvalidArgument
    | _ =>
        if negb (u32 (fold_right Z.add 0 itemSizes) =? itemSize zipped) then Throw InvalidArgument
        else
          let* st := foldO (fun (st : list (Serie T) * Z) k =>
                              let* s := unzip_one zipped (snd st) k in
                              Ok (fst st ++ [s], u32 (snd st + k)))
                           itemSizes ([], 0) in
          Ok (fst st)
    end.
End Utils.

(** ** sort *)

(** [std::sort(first, last, lt)] has undefined behaviour unless [lt] is a strict weak order on the elements; this
    is checked here on the given elements *)
Definition implb3 (a b c : bool) : bool := implb (a && b) c.
Definition incomparable {A} (lt : A -> A -> bool) (x y : A) : bool := negb (lt x y) && negb (lt y x).
Definition swo_on {A} (lt : A -> A -> bool) (l : list A) : bool :=
  forallb (fun x => negb (lt x x)) l &&
  forallb (fun x => forallb (fun y => forallb (fun z =>
    implb3 (lt x y) (lt y z) (lt x z) &&
    implb3 (incomparable lt x y) (incomparable lt y z) (incomparable lt x z)) l) l) l.

(** Which of the possible results [std::sort] delivers is not fixed by the standard: the sorting algorithm is a parameter. *)
Definition Sorter : Type := forall A : Type, (A -> A -> bool) -> list A -> list A.
Definition std_sort (sorter : Sorter) {A} (lt : A -> A -> bool) (l : list A) : outcome (list A) :=
  if swo_on lt l then Ok (sorter A lt l) else UB.

Section Sort.
  Context {T : Type} `{Num T} (sorter : Sorter).

  (** sort.h:31-60: the comparator [comp] is only used for item sizes other than 1.  [comp] is taken as
      a function without side effects. *)
  Definition sort_by (comp : list T -> list T -> bool) (s : Serie T) : outcome (Serie T) :=
    if negb (isValid s) then Ok serie_default
    else if itemSize s =? 1 then
      let* values := mapO (get_double s) (iota (count s)) in
      let* sorted := std_sort sorter n_ltb values in
      serie_of 1 sorted 3
    else
      let* values := mapO (get_array s) (iota (count s)) in
      let* sorted := std_sort sorter comp values in
      serie_of (s32 (itemSize s)) (concat sorted) 3.

  (** the lambda of sort.h:67-73 on arrays of one common size *)
  Fixpoint lex_lt (a b : list T) : bool :=
    match a, b with
    | x :: a', y :: b' => if negb (n_eqb x y) then n_ltb x y else lex_lt a' b'
    | _, _ => false
    end.
  (** sort.h:63-74 ([std::less<>] for item size 1 is never called) *)
  Definition sort_default (s : Serie T) : outcome (Serie T) := sort_by lex_lt s.
End Sort.

(** ** print: the text written, as tokens; how numbers are formatted is left open *)
Inductive token (T : Type) : Type :=
| Text (s : String.string)
| NumT (x : T)
| IntT (z : Z)
| Endl.
Arguments Text {T} s%string.
Arguments NumT {T} x.
Arguments IntT {T} z.
Arguments Endl {T}.

Section Print.
  Context {T : Type} `{Num T}.

  (** print.h:44-48, 56-60: [v.size() - 1] is a [size_t]; [v.back()] of an empty vector is undefined *)
  Definition print_array (v : list T) : outcome (list (token T)) :=
    let* first := mapO (fun j => let* x := rd v j in Ok [NumT x; Text ","]) (iota (u64 (len v - 1))) in
    let* last := rd v (len v - 1) in
    Ok (Text "(" :: concat first ++ [NumT last; Text ")"]).
  Definition print_item (s : Serie T) (i : Z) : outcome (list (token T)) :=
    if itemSize s =? 1 then let* x := get_double s i in Ok [NumT x]
    else let* v := get_array s i in print_array v.

  (** print.h:31-64 *)
  Definition print (s : Serie T) : outcome (list (token T)) :=
    let header := [Text "Serie:"; Endl; Text "  itemSize : "; IntT (itemSize s); Endl;
                   Text "  count    : "; IntT (count s); Endl;
                   Text "  dimension: "; IntT (dimension s); Endl; Text "  values   : ["] in
    let* items := (if 0 <? count s then
                     let* l := mapO (fun i => let* t := print_item s i in Ok (t ++ [Text ", "]))
                                    (iota (u32 (count s - 1))) in
                     let* last := print_item s (u32 (count s - 1)) in
                     Ok (concat l ++ last)
                   else Ok []) in
    Ok (header ++ items ++ [Text "]"; Endl]).

  (** print.h:66-79, for two or more Series (with one, overload resolution picks [print] above) *)
  Definition print_all (ss : list (Serie T)) : outcome (list (token T)) :=
    let* l := mapO (fun i => let* s := rd ss i in let* t := print s in
                             Ok ([Text "Series "; IntT (i + 1); Text ":"; Endl] ++ t)) (iota (len ss)) in
    Ok (concat l).
End Print.
