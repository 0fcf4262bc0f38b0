(** * src/functional/math, include/dataframe/functional/math (without random). *)
From Verif Require Import Base Num Serie Functional.
Local Open Scope num_scope.

Section Mathf.
  Context {T : Type} `{Num T}.

  (** [for (k = 0; k < n; ++k) r[k] = f(k, r[k])] *)
  Definition upd_each (n : Z) (f : Z -> T -> outcome T) (r : list T) : outcome (list T) :=
    foldO (fun r k => let* x := rd r k in let* y := f k x in wr r k y) (iota n) r.

  (** ** add, sub *)

  (** add.h:35-56, sub.h:34-55, with [op] the sum or the difference *)
  Definition pointwise (op : T -> T -> T) (s1 s2 : Serie T) : outcome (Serie T) :=
    if negb (itemSize s1 =? itemSize s2) || negb (count s1 =? count s2) then Throw InvalidArgument
    else
      foldO (fun result i =>
        if itemSize s1 =? 1 then
          let* x := get_double s1 i in
          let* y := get_double s2 i in
          set_double result i (op x y)
        else
          let* v1 := get_array s1 i in
          let* v2 := get_array s2 i in
          let* sum := upd_each (itemSize s1) (fun j _ => let* x := rd v1 j in let* y := rd v2 j in Ok (op x y))
                               (replicate (itemSize s1) n0) in
          set_array result i sum) (iota (count s1)) (serie_n (s32 (itemSize s1)) (count s1) 3).
  Definition add (s1 s2 : Serie T) := pointwise n_add s1 s2.
  Definition sub (s1 s2 : Serie T) := pointwise n_sub s1 s2.

  (** add.cxx:29-64, sub.cxx:29-64.  [series[0]] of an empty list is undefined. *)
  Definition pointwise_list (op : T -> T -> T) (series : list (Serie T)) : outcome (Serie T) :=
    match series with
    | [] => UB
    | firstSerie :: rest =>
        if forallb (fun s => (count firstSerie =? count s) && (itemSize firstSerie =? itemSize s)) rest then
          run (map_vv (fun a i => lift (
                 foldO (fun r serie =>
                          upd_each (itemSize firstSerie) (fun k x => let* v := value serie i in let* y := rd v k in Ok (op x y)) r)
                       rest a)) firstSerie)
        else Throw InvalidArgument
    end.
  Definition add_list (series : list (Serie T)) := pointwise_list n_add series.
  Definition sub_list (series : list (Serie T)) := pointwise_list n_sub series.

  (** add.cxx:66-72, sub.cxx:66-72 *)
  Definition shift (op : T -> T -> T) (s : Serie T) (v : T) : outcome (Serie T) :=
    if negb (itemSize s =? 1) then Throw InvalidArgument
    else run (map_ss (fun a _ => ret (op a v)) s).
  Definition add_value (s : Serie T) (v : T) := shift n_add s v.
  Definition sub_value (s : Serie T) (v : T) := shift n_sub s v.

  (** add.h:58-72.  For two arguments overload resolution prefers the function of add.h:35.  A call without argument does not
      compile ([std::get<0>] of an empty tuple); the model gives it the exception of the unreached check. *)
  Definition add_variadic (series : list (Serie T)) : outcome (Serie T) :=
    match series with
    | [] => Throw InvalidArgument
    | [s1; s2] => add s1 s2
    | first :: _ =>
        let* _ := countAndCheck series in
        foldO (fun result s => let* r := add result s in Ok (serie_assign result r)) series
              (serie_n (s32 (itemSize first)) (count first) 3)
    end.
  (** The template of sub.h:57-71 that subtracts is named [add], like that of add.h; there is no variadic [sub], and a file including
      both headers does not compile.  It is in SubAdd.v. *)

  (** ** negate, scale, mult, div *)

  (** negate.cxx:29-38 *)
  Definition negate (s : Serie T) : outcome (Serie T) :=
    run (map_vv (fun a _ => lift (upd_each (itemSize s) (fun _ x => Ok (x [*] n_of_Z (-1))) a)) s).

  (** scale.cxx:29-38 *)
  Definition scale (s : Serie T) (f : T) : outcome (Serie T) :=
    run (map_vv (fun a _ => lift (upd_each (itemSize s) (fun _ x => Ok (x [*] f)) a)) s).
  (** scale.cxx:40-55 *)
  Definition scale_array (s : Serie T) (scales : list T) : outcome (Serie T) :=
    if negb (itemSize s =? len scales) then Throw InvalidArgument
    else run (map_vv (fun a _ => lift (upd_each (itemSize s) (fun k x => let* f := rd scales k in Ok (x [*] f)) a)) s).

  (** mult.cxx:29-38 *)
  Definition mult (s : Serie T) (d : T) : outcome (Serie T) :=
    run (map_vv (fun a _ => lift (upd_each (len a) (fun _ x => Ok (x [*] d)) a)) s).
  (** mult.cxx:40-89.  In the scalar case the whole storage is multiplied. *)
  Definition mult_serie (s multiplier : Serie T) : outcome (Serie T) :=
    if negb (count s =? count multiplier) then Throw InvalidArgument
    else if itemSize s =? 1 then
      if negb (itemSize multiplier =? 1) then Throw InvalidArgument
      else
        let a1 := asArray s in
        let a2 := asArray multiplier in
        let* a3 := upd_each (len a1) (fun i _ => let* x := rd a1 i in let* y := rd a2 i in Ok (x [*] y))
                            (createArray (len a1) n0) in
        serie_of 1 a3 3
    else
      run (map_vv (fun a i =>
             if itemSize multiplier =? 1 then
               lift (let* d := scalar multiplier i in upd_each (len a) (fun _ x => Ok (x [*] d)) a)
             else if negb (itemSize multiplier =? itemSize s) then throwM InvalidArgument
             else lift (let* d := value multiplier i in
                        upd_each (len a) (fun j x => let* y := rd d j in Ok (x [*] y)) a)) s).

  (** div.cxx:30-41 *)
  Definition div_value (d : T) (s : Serie T) : outcome (Serie T) :=
    run (map_vv (fun a _ => lift (upd_each (len a) (fun _ x => Ok (x [/] d)) a)) s).

  (** 1e-10 *)
  Definition n_tiny : T := n_ratio 1 (10 ^ 10).
  (** div.cxx:43-85 *)
  Definition div_serie (divider s : Serie T) : outcome (Serie T) :=
    if negb (isValid s) || negb (isValid divider) then Throw InvalidArgument
    else if negb (count divider =? count s) then Throw InvalidArgument
    else if negb (itemSize divider =? 1) then Throw InvalidArgument
    else if itemSize s =? 1 then
      run (map_ss (fun v i =>
             let! w := lift (get_double divider i) in
             ret (if n_ltb (n_abs w) n_tiny then n0 else v [/] w)) s)
    else
      run (map_vv (fun v i =>
             let! w := lift (get_double divider i) in
             if n_ltb (n_abs w) n_tiny then ret (replicate (len v) n0)
             else lift (upd_each (len v) (fun j _ => let* x := rd v j in Ok (x [/] w)) (replicate (len v) n0))) s).

  (** ** weigthedSum: weightedSum.cxx:29-78.  [series[0]] of an empty list is undefined. *)
  Definition weigthedSum (series : list (Serie T)) (weights : list T) : outcome (Serie T) :=
    if negb (len series =? len weights) then Throw InvalidArgument
    else
      match series with
      | [] => UB
      | firstSerie :: _ =>
          if forallb (fun s => (count s =? count firstSerie) && (itemSize s =? itemSize firstSerie)) series then
            run (map_vv (fun _ i => lift (
                   foldO (fun r j =>
                            let* serie := rd series j in
                            let* sv := value serie i in
                            let* a := rd weights j in
                            upd_each (itemSize firstSerie) (fun k x => let* y := rd sv k in Ok (x [+] y [*] a)) r)
                         (iota (len series)) (createArray (itemSize firstSerie) n0))) firstSerie)
          else Throw InvalidArgument
      end.

  (** ** minMax: minMax.cxx:29-66 *)
  Definition minMax (s : Serie T) : outcome (list T * list T) :=
    if negb (isValid s) then Throw InvalidArgument
    else if count s =? 0 then Ok ([], [])
    else if itemSize s =? 1 then
      let* mm := foldO (fun (mm : T * T) i =>
                          let* v := get_double s i in
                          Ok (n_min (fst mm) v, n_max (snd mm) v)) (iota (count s)) (n_dblmax, n_lowest) in
      Ok ([fst mm], [snd mm])
    else
      let* first := get_array s 0 in
      foldO (fun (mm : list T * list T) i =>
               let* v := get_array s i in
               foldO (fun (mm : list T * list T) j =>
                        let* x := rd v j in
                        let* lo := rd (fst mm) j in
                        let* hi := rd (snd mm) j in
                        let* mn := wr (fst mm) j (n_min lo x) in
                        let* mx := wr (snd mm) j (n_max hi x) in
                        Ok (mn, mx)) (iota (len v)) mm) (iota_from 1 (count s)) (first, first).

  (** ** normalize: normalize.cxx:35-65 *)
  Definition normalize (s : Serie T) : outcome (Serie T) :=
    if negb (isValid s) then Throw InvalidArgument
    else if itemSize s =? 1 then
      let* mm := minMax s in
      let* mx := rd (snd mm) 0 in
      let* mn := rd (fst mm) 0 in
      let l := n1 [/] (mx [-] mn) in
      run (map_ss (fun v _ => lift (let* m := rd (fst mm) 0 in Ok (l [*] (v [-] m)))) s)
    else
      run (map_vv (fun item _ =>
             let length_squared := fold_left (fun acc v => acc [+] v [*] v) item n0 in
             let l := n1 [/] n_sqrt length_squared in
             ret (map (fun v => v [*] l) item)) s).

  (** ** equals *)

  (** [operator==] of [std::vector<double>] *)
  Fixpoint array_eqb (a b : list T) : bool :=
    match a, b with
    | [], [] => true
    | x :: a', y :: b' => n_eqb x y && array_eqb a' b'
    | _, _ => false
    end.
  (** [std::equal(a.begin(), a.end(), b.begin(), p)]: undefined when [b] ends first *)
  Fixpoint std_equal (p : T -> T -> bool) (a b : list T) : outcome bool :=
    match a, b with
    | [], _ => Ok true
    | x :: a', y :: b' => if p x y then std_equal p a' b' else Ok false
    | _ :: _, [] => UB
    end.

  Definition same_shape (s1 s2 : Serie T) : bool :=
    isValid s1 && isValid s2 && (itemSize s1 =? itemSize s2) && (count s1 =? count s2).

  (** equals.h:35-48 *)
  Definition equals (s1 s2 : Serie T) : bool :=
    same_shape s1 s2 && (dimension s1 =? dimension s2) && array_eqb (asArray s1) (asArray s2).

  Definition within (epsilon a b : T) : bool := n_leb (n_abs (a [-] b)) epsilon.
  (** equals.h:52-70 *)
  Definition approximatelyEquals (s1 s2 : Serie T) (epsilon : T) : outcome bool :=
    if same_shape s1 s2 && (dimension s1 =? dimension s2)
    then std_equal (within epsilon) (asArray s1) (asArray s2)
    else Ok false.
  (** equals.h:33: 2^-52 * 100 *)
  Definition default_epsilon : T := n_ratio 1 (2 ^ 52) [*] n_of_Z 100.

  (** equals.h:77-87 *)
  Fixpoint equalsAll (first : Serie T) (rest : list (Serie T)) : bool :=
    match rest with
    | [] => true
    | second :: r => equals first second && equalsAll second r
    end.
  (** equals.h:92-107.  [approximatelyEqualsAll(second, rest..., epsilon)] passes epsilon where a Serie is expected as soon as it
      recurses through the pack, so that only one or two Series compile; the two-Serie case: *)
  Definition approximatelyEqualsAll2 (first second : Serie T) (epsilon : T) : outcome bool :=
    let* b := approximatelyEquals first second epsilon in Ok b.

  (** equals.h:122-140 and 157-181, with [p] the comparison of components *)
  Definition mask (p : T -> T -> bool) (s1 s2 : Serie T) : outcome (Serie T) :=
    if negb (same_shape s1 s2) then Throw InvalidArgument
    else
      foldO (fun result i =>
               if itemSize s1 =? 1 then
                 let* x := scalar s1 i in
                 let* y := scalar s2 i in
                 setScalar result i (if p x y then n1 else n0)
               else
                 let* v1 := value s1 i in
                 let* v2 := value s2 i in
                 let* equal := std_equal p v1 v2 in
                 setScalar result i (if equal : bool then n1 else n0)) (iota (count s1)) (serie_n 1 (count s1) 3).
  Definition equalityMask (s1 s2 : Serie T) := mask n_eqb s1 s2.
  Definition approximateEqualityMask (s1 s2 : Serie T) (epsilon : T) := mask (within epsilon) s1 s2.
End Mathf.
