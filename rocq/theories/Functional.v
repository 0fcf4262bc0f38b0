(** * The functional layer: include/dataframe/functional/{map,filter,find,forEach,reduce,merge,pipe}.h,
      functional/conditional/check.h, functional/utils/{reject,partition,compose}.h.

    The C++ templates choose at compile time between callbacks on numbers and callbacks on [Array]; each choice is
    one definition here: suffix [_s] for a callback taking a [double] (the reader is [get<double>]), suffix [_v] for
    a callback taking an [Array] (the reader is [get<Array>]).  Parameter packs of Series are lists.
    The [make_] factories (functional/macros.h:40-45 and their hand-written variants) are partial
    applications of the same functions and have no definition of their own.  Not modelled because they do not
    compile when used: [make_check] (calls [check] with its arguments exchanged) and the member [Serie::pipe] with a
    single operation (calls [pipe(op, *this)]).
    [reserve] calls have no effect apart from memory exhaustion and are left out. *)
From Verif Require Import Base Num Serie.

Section Functional.
  Context {T : Type} `{Num T} {St : Type}.

  (** one loop [for (i = 0; i < n; ++i) results.push_back(cb(get(i), i))] *)
  Definition each {A B} (get : Z -> outcome A) (cb : A -> Z -> M St B) (n : Z) : M St (list B) :=
    mapM (fun i => let! x := lift (get i) in cb x i) (iota n).

  (** ** map *)

  (** functional/map.h:43-49 and 79-84: callback returning a number *)
  Definition map_num {A} (get : Z -> outcome A) (cb : A -> Z -> M St T) (n : Z) : M St (Serie T) :=
    let! results := each get cb n in
    lift (serie_of 1 results 3).

  (** functional/map.h:52-71 and 87-106: callback returning an [Array].  The first result fixes the
      item size; [size_t] to [int] conversion of the item size in the constructor call. *)
  Definition map_arr {A} (get : Z -> outcome A) (cb : A -> Z -> M St (list T)) (n : Z)
    : M St (Serie T) :=
    if n =? 0 then ret (serie_n 0 0 3)
    else
      let! x0 := lift (get 0) in
      let! first_result := cb x0 0 in
      let! flattened := foldM (fun flattened i =>
          let! x := lift (get i) in
          let! result := cb x i in
          if negb (len result =? len first_result) then throwM RuntimeError
          else ret (flattened ++ result)) (iota_from 1 n) first_result in
      lift (serie_of (s32 (len first_result)) flattened 3).

  Definition map_ss (cb : T -> Z -> M St T) (s : Serie T) : M St (Serie T) :=
    map_num (get_double s) cb (count s).
  Definition map_sv (cb : T -> Z -> M St (list T)) (s : Serie T) : M St (Serie T) :=
    map_arr (get_double s) cb (count s).
  Definition map_vs (cb : list T -> Z -> M St T) (s : Serie T) : M St (Serie T) :=
    map_num (get_array s) cb (count s).
  Definition map_vv (cb : list T -> Z -> M St (list T)) (s : Serie T) : M St (Serie T) :=
    map_arr (get_array s) cb (count s).

  (** [args.get<Array>(i)...]: the order of the reads is unspecified in C++; they have no effect *)
  Definition get_all (ss : list (Serie T)) (i : Z) : outcome (list (list T)) :=
    mapO (fun s => get_array s i) ss.

  (** functional/map.h:121-136, 156: the callback runs on index 0 before the loop; the result is assigned to a
      default-constructed Serie (which keeps dimension 3) *)
  Definition map_n_s (cb : list (list T) -> Z -> M St T) (ss : list (Serie T)) : M St (Serie T) :=
    let! n := lift (countAndCheck ss) in
    let! x0 := lift (get_all ss 0) in
    let! first_result := cb x0 0 in
    let! rest := mapM (fun i => let! x := lift (get_all ss i) in cb x i) (iota_from 1 n) in
    let! r := lift (serie_of 1 (first_result :: rest) 3) in
    ret (serie_assign serie_default r).

  (** functional/map.h:121-125, 138-156 *)
  Definition map_n_v (cb : list (list T) -> Z -> M St (list T)) (ss : list (Serie T)) : M St (Serie T) :=
    let! n := lift (countAndCheck ss) in
    let! x0 := lift (get_all ss 0) in
    let! first_result := cb x0 0 in
    let! flattened := foldM (fun flattened i =>
        let! x := lift (get_all ss i) in
        let! result_i := cb x i in
        if negb (len result_i =? len first_result) then throwM RuntimeError
        else ret (flattened ++ result_i)) (iota_from 1 n) first_result in
    let! r := lift (serie_of (s32 (len first_result)) flattened 3) in
    ret (serie_assign serie_default r).

  (** ** filter, reject *)

  (** the loop collecting the indices with [cb(get(i), i) == wanted] *)
  Definition collect {A} (get : Z -> outcome A) (cb : A -> Z -> M St bool) (wanted : bool) (n : Z)
    : M St (list Z) :=
    foldM (fun indices i =>
             let! x := lift (get i) in
             let! b := cb x i in
             ret (if Bool.eqb b wanted then indices ++ [i] else indices)) (iota n) [].

  (** the loops [result.set(i, serie.get<double>(indices[i]))] / [get<Array>] *)
  Definition copy_s (s : Serie T) (indices : list Z) (result : Serie T) : outcome (Serie T) :=
    foldO (fun result i =>
             let* x := (let* idx := rd indices i in get_double s idx) in
             set_double result i x) (iota (len indices)) result.
  Definition copy_v (s : Serie T) (indices : list Z) (result : Serie T) : outcome (Serie T) :=
    foldO (fun result i =>
             let* x := (let* idx := rd indices i in get_array s idx) in
             set_array result i x) (iota (len indices)) result.

  (** [Serie result(1, indices.size())], [Serie result(s.itemSize(), indices.size())] *)
  Definition take_s (s : Serie T) (indices : list Z) : outcome (Serie T) :=
    copy_s s indices (serie_n 1 (u32 (len indices)) 3).
  Definition take_v (s : Serie T) (indices : list Z) : outcome (Serie T) :=
    copy_v s indices (serie_n (s32 (itemSize s)) (u32 (len indices)) 3).

  (** functional/filter.h:87-105, 107-125 *)
  Definition filter_s (cb : T -> Z -> M St bool) (s : Serie T) : M St (Serie T) :=
    let! indices := collect (get_double s) cb true (count s) in lift (take_s s indices).
  Definition filter_v (cb : list T -> Z -> M St bool) (s : Serie T) : M St (Serie T) :=
    let! indices := collect (get_array s) cb true (count s) in lift (take_v s indices).

  (** functional/utils/reject.h:36-54, 56-74 *)
  Definition reject_s (cb : T -> Z -> M St bool) (s : Serie T) : M St (Serie T) :=
    let! indices := collect (get_double s) cb false (count s) in lift (take_s s indices).
  Definition reject_v (cb : list T -> Z -> M St bool) (s : Serie T) : M St (Serie T) :=
    let! indices := collect (get_array s) cb false (count s) in lift (take_v s indices).

  (** functional/filter.h:170-189 *)
  Definition filter_n (cb : list (list T) -> Z -> M St bool) (ss : list (Serie T))
    : M St (list (Serie T)) :=
    let! n := lift (countAndCheck ss) in
    let! indices := collect (get_all ss) cb true n in
    lift (mapO (fun s => take_v s indices) ss).
  (** functional/filter.h:237-264: as above, the predicate does not get the index *)
  Definition filterAll (cb : list (list T) -> M St bool) (ss : list (Serie T)) : M St (list (Serie T)) :=
    let! n := lift (countAndCheck ss) in
    let! indices := collect (get_all ss) (fun x _ => cb x) true n in
    lift (mapO (fun s => take_v s indices) ss).
  (** functional/utils/reject.h:86-105 *)
  Definition reject_n (cb : list (list T) -> Z -> M St bool) (ss : list (Serie T))
    : M St (list (Serie T)) :=
    let! n := lift (countAndCheck ss) in
    let! indices := collect (get_all ss) cb false n in
    lift (mapO (fun s => take_v s indices) ss).
  (** functional/utils/reject.h:124-151 *)
  Definition rejectAll (cb : list (list T) -> M St bool) (ss : list (Serie T)) : M St (list (Serie T)) :=
    let! n := lift (countAndCheck ss) in
    let! indices := collect (get_all ss) (fun x _ => cb x) false n in
    lift (mapO (fun s => take_v s indices) ss).

  (** ** partition: functional/utils/partition.h:42-93 *)
  Definition collect2 {A} (get : Z -> outcome A) (cb : A -> Z -> M St bool) (n : Z)
    : M St (list Z * list Z) :=
    foldM (fun (acc : list Z * list Z) i =>
             let! x := lift (get i) in
             let! b := cb x i in
             ret (if b then (fst acc ++ [i], snd acc) else (fst acc, snd acc ++ [i])))
          (iota n) ([], []).

  Definition partition_s (cb : T -> Z -> M St bool) (s : Serie T) : M St (Serie T * Serie T) :=
    if negb (itemSize s =? 1) then throwM InvalidArgument
    else
      let! idx := collect2 (get_double s) cb (count s) in
      let! matched := lift (take_s s (fst idx)) in
      let! unmatched := lift (take_s s (snd idx)) in
      ret (matched, unmatched).
  Definition partition_v (cb : list T -> Z -> M St bool) (s : Serie T) : M St (Serie T * Serie T) :=
    let! idx := collect2 (get_array s) cb (count s) in
    let! matched := lift (take_v s (fst idx)) in
    let! unmatched := lift (take_v s (snd idx)) in
    ret (matched, unmatched).

  (** ** find: functional/find.h:34-41, 46-74.  [FindResult] as a record *)
  Record find_result (A : Type) : Type := mkFind { fr_value : A; fr_index : Z; fr_found : bool }.

  Fixpoint find_loop {A} (get : Z -> outcome A) (cb : A -> Z -> M St bool) (none : A) (l : list Z)
    : M St (find_result A) :=
    match l with
    | [] => ret (mkFind A none 0 false)
    | i :: r =>
        let! value := lift (get i) in
        let! b := cb value i in
        if b : bool then ret (mkFind A value i true) else find_loop get cb none r
    end.

  Definition find_s (cb : T -> Z -> M St bool) (s : Serie T) : M St (find_result T) :=
    if negb (itemSize s =? 1) then throwM InvalidArgument
    else find_loop (get_double s) cb n0 (iota (count s)).
  Definition find_v (cb : list T -> Z -> M St bool) (s : Serie T) : M St (find_result (list T)) :=
    if itemSize s =? 1 then throwM InvalidArgument
    else find_loop (get_array s) cb [] (iota (count s)).

  (** functional/find.h:91-119 *)
  Definition take_any (s : Serie T) (indices : list Z) : outcome (Serie T) :=
    let result := serie_n (s32 (itemSize s)) (u32 (len indices)) 3 in
    if itemSize s =? 1 then copy_s s indices result else copy_v s indices result.
  Definition findAll_s (cb : T -> Z -> M St bool) (s : Serie T) : M St (Serie T) :=
    let! indices := collect (get_double s) cb true (count s) in lift (take_any s indices).
  Definition findAll_v (cb : list T -> Z -> M St bool) (s : Serie T) : M St (Serie T) :=
    let! indices := collect (get_array s) cb true (count s) in lift (take_any s indices).

  (** ** forEach: functional/forEach.h:63-114 *)
  Definition forEach_s (cb : T -> Z -> M St unit) (s : Serie T) : M St unit :=
    if negb (itemSize s =? 1) then throwM InvalidArgument
    else let! _ := each (get_double s) cb (count s) in ret tt.
  Definition forEach_v (cb : list T -> Z -> M St unit) (s : Serie T) : M St unit :=
    if itemSize s =? 1 then throwM InvalidArgument
    else let! _ := each (get_array s) cb (count s) in ret tt.
  (** the generic callback [(const auto&, uint32_t)]: one instance on numbers, one on Arrays *)
  Definition forEach_auto (cbs : T -> Z -> M St unit) (cbv : list T -> Z -> M St unit) (s : Serie T)
    : M St unit :=
    if itemSize s =? 1
    then let! _ := each (get_double s) cbs (count s) in ret tt
    else let! _ := each (get_array s) cbv (count s) in ret tt.
  Definition forEach_n (cb : list (list T) -> Z -> M St unit) (ss : list (Serie T)) : M St unit :=
    let! n := lift (countAndCheck ss) in
    let! _ := each (get_all ss) cb n in
    ret tt.

  (** ** reduce: functional/reduce.h:80-88, 90-98 *)
  Definition reduce_s (cb : T -> T -> Z -> M St T) (s : Serie T) (init : T) : M St T :=
    foldM (fun result i => let! x := lift (get_double s i) in cb result x i) (iota (count s)) init.
  Definition reduce_v (cb : list T -> list T -> Z -> M St (list T)) (s : Serie T) (init : list T)
    : M St (Serie T) :=
    let! result := foldM (fun result i => let! x := lift (get_array s i) in cb result x i)
                         (iota (count s)) init in
    lift (serie_of (s32 (len result)) result 3).

  (** ** check: functional/conditional/check.h:33-51 *)
  Definition bit (b : bool) : T := if b then n1 else n0.
  Definition check_s (s : Serie T) (cb : T -> Z -> M St bool) : M St (Serie T) :=
    map_num (get_double s) (fun x i => let! b := cb x i in ret (bit b)) (count s).
  Definition check_v (s : Serie T) (cb : list T -> Z -> M St bool) : M St (Serie T) :=
    map_num (get_array s) (fun x i => let! b := cb x i in ret (bit b)) (count s).

  (** ** pipe: functional/pipe.h:66-68, 115-118, 140-144.

      The values passed between stages may have different C++ types; [D] is any type containing
      them all.  [pipe] needs at least one stage; an empty list does not compile and is given the result UB here. *)
  Fixpoint pipe {D} (input : D) (ops : list (D -> M St D)) : M St D :=
    match ops with
    | [] => lift UB
    | [op] => op input
    | op :: rest => let! y := op input in pipe y rest
    end.
  Definition make_pipe {D} (ops : list (D -> M St D)) : D -> M St D := fun input => pipe input ops.

  (** functional/utils/compose.h:31-37, 40-43, 57-61: at least two functions *)
  Definition compose2 {D} (f g : D -> M St D) : D -> M St D := fun x => let! y := g x in f y.
  Fixpoint compose_from {D} (f : D -> M St D) (fs : list (D -> M St D)) : D -> M St D :=
    match fs with
    | [] => f
    | g :: rest => compose2 f (compose_from g rest)
    end.
  Definition compose {D} (fs : list (D -> M St D)) : D -> M St D :=
    match fs with
    | f :: g :: rest => compose_from f (g :: rest)
    | _ => fun _ => lift UB
    end.
End Functional.

Arguments mkFind {A} _ _ _.
Arguments fr_value {A} _.
Arguments fr_index {A} _.
Arguments fr_found {A} _.

Section Merge.
  Context {T : Type} `{Num T}.

  (** [result.set(idx++, s.get<Array>(i))]; [idx] is a [uint32_t] *)
  Definition put_next (s : Serie T) (i : Z) (st : Serie T * Z) : outcome (Serie T * Z) :=
    let* v := get_array s i in
    let* r := set_array (fst st) (snd st) v in
    Ok (r, u32 (snd st + 1)).

  Definition put_next_all (s : Serie T) (st : Serie T * Z) : outcome (Serie T * Z) :=
    foldO (fun st i => put_next s i st) (iota (count s)) st.

  (** [if (i < s.count()) result.set(idx++, s.get<Array>(i))] *)
  Definition put_next_if (s : Serie T) (i : Z) (st : Serie T * Z) : outcome (Serie T * Z) :=
    if i <? count s then put_next s i st else Ok st.

  (** functional/merge.h:35-65 *)
  Definition merge2 (s1 s2 : Serie T) (concatenate : bool) : outcome (Serie T) :=
    if negb (itemSize s1 =? itemSize s2) then Throw InvalidArgument
    else
      let result := serie_n (s32 (itemSize s1)) (u32 (count s1 + count s2)) 3 in
      let* st := (if concatenate then
                    let* st1 := put_next_all s1 (result, 0) in put_next_all s2 st1
                  else
                    foldO (fun st i => let* st1 := put_next_if s1 i st in put_next_if s2 i st1)
                          (iota (Z.max (count s1) (count s2))) (result, 0)) in
      Ok (fst st).

  (** functional/merge.h:68-101; an empty pack does not compile (UB here) *)
  Definition max_count (ss : list (Serie T)) : Z := fold_right Z.max 0 (map count ss).
  Fixpoint all_equal (l : list Z) : bool :=
    match l with
    | x :: ((y :: _) as r) => (y =? x) && all_equal r
    | _ => true
    end.
  Definition mergeN (concatenate : bool) (ss : list (Serie T)) : outcome (Serie T) :=
    match ss with
    | [] => UB
    | s0 :: _ =>
        if negb (all_equal (map itemSize ss)) then Throw InvalidArgument
        else
          let total := u32 (fold_right Z.add 0 (map count ss)) in
          let result := serie_n (s32 (itemSize s0)) total 3 in
          let* st := (if concatenate then foldO (fun st s => put_next_all s st) ss (result, 0)
                      else foldO (fun st i => foldO (fun st s => put_next_if s i st) ss st)
                                 (iota (max_count ss)) (result, 0)) in
          Ok (fst st)
    end.
End Merge.
