(** * The class [Serie]: src/Serie.cxx, include/dataframe/Serie.h,
      include/dataframe/inline/Serie.hxx, include/dataframe/types.h *)
From Verif Require Import Base Num.

(** include/dataframe/Serie.h:114-118.  [count_] is a [uint32_t], [dimension_] a [uint],
    [itemSize_] an [int]. *)
Record Serie (T : Type) : Type := mkSerie {
  s_ : list T;
  count_ : Z;
  dimension_ : Z;
  itemSize_ : Z
}.
Arguments mkSerie {T} _ _ _ _.
Arguments s_ {T} _.
Arguments count_ {T} _.
Arguments dimension_ {T} _.
Arguments itemSize_ {T} _.

Section SerieModel.
  Context {T : Type} `{Num T}.

  (** src/Serie.cxx:29-32 [Serie(int itemSize, uint32_t count, uint dimension)]:
      [count * itemSize] is computed in [uint32_t]; [Array(n)] is zero-initialised. *)
  Definition serie_n (itemSize count dimension : Z) : Serie T :=
    {| s_ := replicate (u32 (count * itemSize)) n0;
       count_ := count; dimension_ := dimension; itemSize_ := itemSize |}.

  (** include/dataframe/Serie.h:71 [Serie()] *)
  Definition serie_default : Serie T := serie_n 0 0 3.

  (** src/Serie.cxx:39-50 [Serie(int itemSize, const Array&/initializer_list, uint dimension)]:
      [values.size() / itemSize] is a [size_t] division ([itemSize] converted to [size_t]; division by
      zero is undefined), the quotient is converted to [uint32_t]. *)
  Definition serie_of (itemSize : Z) (values : list T) (dimension : Z) : outcome (Serie T) :=
    if itemSize =? 0 then UB
    else Ok {| s_ := values; count_ := u32 (len values / u64 itemSize);
               dimension_ := dimension; itemSize_ := itemSize |}.

  (** src/Serie.cxx:34-37, copy constructor *)
  Definition serie_copy (s : Serie T) : Serie T :=
    {| s_ := s_ s; count_ := count_ s; dimension_ := dimension_ s; itemSize_ := itemSize_ s |}.

  (** src/Serie.cxx:52 *)
  Definition isValid (s : Serie T) : bool := 0 <? itemSize_ s.

  (** src/Serie.cxx:54-57 *)
  Definition reCount (s : Serie T) (c : Z) : Serie T :=
    {| s_ := replicate (u32 (c * itemSize_ s)) n0; count_ := c;
       dimension_ := dimension_ s; itemSize_ := itemSize_ s |}.

  (** src/Serie.cxx:59-64, [t = s]: the dimension of [t] is not touched *)
  Definition serie_assign (t s : Serie T) : Serie T :=
    {| s_ := s_ s; count_ := count_ s; dimension_ := dimension_ t; itemSize_ := itemSize_ s |}.

  (** src/Serie.cxx:66: [Serie(itemSize_, s_)], default dimension 3 *)
  Definition clone (s : Serie T) : outcome (Serie T) := serie_of (itemSize_ s) (s_ s) 3.

  (** src/Serie.cxx:68-74 *)
  Definition size (s : Serie T) : Z := u32 (count_ s * itemSize_ s).
  Definition count (s : Serie T) : Z := count_ s.
  Definition itemSize (s : Serie T) : Z := u32 (itemSize_ s).
  Definition dimension (s : Serie T) : Z := dimension_ s.
  (** include/dataframe/inline/Serie.hxx:65 (const version) *)
  Definition asArray (s : Serie T) : list T := s_ s.

  (** The item read [s_[i*itemSize_ + j]], j = 0..itemSize_-1, indices in [uint32_t].
      [Array r(itemSize_)] throws [std::length_error] for a negative size. The result array
      is built directly instead of being filled. *)
  Definition read_item (s : Serie T) (i : Z) : outcome (list T) :=
    if itemSize_ s <? 0 then Throw LengthError
    else mapO (fun j => rd (s_ s) (u32 (u32 (i * itemSize_ s) + j))) (iota (itemSize_ s)).

  (** src/Serie.cxx:88-95 *)
  Definition value (s : Serie T) (i : Z) : outcome (list T) := read_item s i.

  (** src/Serie.cxx:97-104: the guard is [i > size()] *)
  Definition scalar (s : Serie T) (i : Z) : outcome T :=
    if size s <? i then Throw InvalidArgument else rd (s_ s) i.

  (** include/dataframe/inline/Serie.hxx:117-125 [get<Array>] *)
  Definition get_array (s : Serie T) (i : Z) : outcome (list T) :=
    if itemSize_ s =? 1 then let* x := rd (s_ s) i in Ok [x]
    else read_item s i.

  (** include/dataframe/inline/Serie.hxx:126-133 [get<double>] *)
  Definition get_double (s : Serie T) (i : Z) : outcome T :=
    if len (s_ s) <=? i then Throw InvalidArgument else rd (s_ s) i.

  Definition with_data (s : Serie T) (d : list T) : Serie T :=
    {| s_ := d; count_ := count_ s; dimension_ := dimension_ s; itemSize_ := itemSize_ s |}.

  (** The item write [s_[i*itemSize_ + j] = v[j]], indices in [uint32_t] *)
  Definition write_item (s : Serie T) (i : Z) (v : list T) : outcome (Serie T) :=
    let* d := foldO (fun d j => let* x := rd v j in
                                wr d (u32 (u32 (i * itemSize_ s) + j)) x)
                    (iota (itemSize_ s)) (s_ s) in
    Ok (with_data s d).

  (** src/Serie.cxx:106-121 [setValue]; inline/Serie.hxx:152-166 [set<Array>] (the same checks in
      the same order; [itemSize_] is converted to [size_t] in the size comparison) *)
  Definition setValue (s : Serie T) (i : Z) (v : list T) : outcome (Serie T) :=
    if count_ s <=? i then Throw InvalidArgument
    else if negb (len v =? u64 (itemSize_ s)) then Throw InvalidArgument
    else write_item s i v.
  Definition set_array (s : Serie T) (i : Z) (v : list T) : outcome (Serie T) :=
    if count_ s <=? i then Throw InvalidArgument
    else if negb (len v =? u64 (itemSize_ s)) then Throw InvalidArgument
    else write_item s i v.

  (** src/Serie.cxx:123-130 [setScalar]; inline/Serie.hxx:167-174 [set<double>] *)
  Definition setScalar (s : Serie T) (i : Z) (x : T) : outcome (Serie T) :=
    if len (s_ s) <=? i then Throw InvalidArgument
    else let* d := wr (s_ s) i x in Ok (with_data s d).
  Definition set_double (s : Serie T) (i : Z) (x : T) : outcome (Serie T) :=
    if len (s_ s) <=? i then Throw InvalidArgument
    else let* d := wr (s_ s) i x in Ok (with_data s d).

  (** src/Serie.cxx:144-146: the parameter [dim] is ignored; [itemSize] is [uint32_t] *)
  Definition toSerie (itemSize : Z) (a : list T) (dim : Z) : outcome (Serie T) :=
    serie_of (s32 itemSize) a 3.

  (** include/dataframe/types.h:46-50 *)
  Definition createArray (n : Z) (x : T) : list T := replicate n x.

  (** include/dataframe/utils.h:47-71 [countAndCheck]; returns [counts[0]] (undefined for an empty
      list) *)
  Definition countAndCheck (ss : list (Serie T)) : outcome Z :=
    match ss with
    | [] => UB
    | s0 :: r => if forallb (fun s => count s =? count s0) r then Ok (count s0)
                 else Throw InvalidArgument
    end.
End SerieModel.
