(** * What is written, and to which stream: operator<<, Serie::dump, df::print(Array), info / warning / error / log.

    Output is a list of tokens, each with the stream it goes to; flushing is not modelled ([Endl] also stands for a
    line feed in a text).  A function that writes is a function in the callback monad whose state is the output so far:
    what was written before an exception stays written. *)
From Verif Require Import Base Num Serie Functional Utils.
From Coq Require String.
Import String.StringSyntax.

(** [Other k]: a stream that is neither std::cout nor std::cerr (a file, a string stream) *)
Inductive stream : Type := Cout | Cerr | Other (k : Z).

Section Streams.
  Context {T : Type} `{Num T}.

  Definition Out : Type := list (stream * token T).
  Definition put (o : stream) (t : list (token T)) : M Out unit := fun w => (Ok tt, w ++ map (pair o) t).
  (** a loop whose body only writes *)
  Definition loop {A} (f : A -> M Out unit) (l : list A) : M Out unit := foldM (fun _ x => f x) l tt.

  (** types.h:52-66.  The parameter [o] is only returned; for an empty Array the bracket is opened twice *)
  Definition insert_array (o : stream) (a : list T) : M Out stream :=
    let! _ := put Cout [Text "["] in
    let! _ := (if 0 <? len a then
                 let! _ := loop (fun j => let! x := lift (rd a j) in put Cout [NumT x; Text ", "])
                                (iota (u64 (len a - 1))) in
                 let! x := lift (rd a (len a - 1)) in
                 put Cout [NumT x; Text "]"]
               else put Cout [Text "[]"]) in
    ret o.

  (** types.h:68-74 *)
  Definition insert_strings (o : stream) (a : list String.string) : M Out stream :=
    let! _ := loop (fun v => put Cerr [Text "  "; Text v; Endl]) a in
    let! _ := put Cerr [Endl] in
    ret o.

  (** inline/Serie.hxx:77-81, Serie.cxx:134-138: [for (uint32_t i = 0; i < v.size() - 1; ++i)], then the last element.
      [v.size() - 1] is a [size_t]: for an empty [v] it is 2^64 - 1 and [v[0]] is read out of range.  For more than
      2^32 elements the counter wraps around and the loop never ends; this is [UB] here as well. *)
  Definition insert_values (v : list T) : M Out unit :=
    let n := u64 (len v - 1) in
    if two32 <=? n then lift UB
    else
      let! _ := loop (fun i => let! x := lift (rd v i) in put Cerr [NumT x; Text ", "]) (iota n) in
      let! x := lift (rd v n) in
      put Cerr [NumT x; Text "]"].

  (** inline/Serie.hxx:69-85: everything goes to std::cerr *)
  Definition insert_serie (o : stream) (s : Serie T) : M Out stream :=
    let! _ := put Cerr [Text "Serie:"; Endl; Text "  itemSize : "; IntT (itemSize s); Endl;
                        Text "  count    : "; IntT (count s); Endl;
                        Text "  dimension: "; IntT (dimension s); Endl] in
    let! _ := (if 0 <? count s then
                 let! _ := put Cerr [Text "  values   : ["] in
                 insert_values (asArray s)
               else put Cerr [Text "  values   : []"]) in
    ret o.

  (** inline/Serie.hxx:87-93 *)
  Definition insert_series (o : stream) (ss : list (Serie T)) : M Out stream :=
    let! _ := put o [IntT (len ss); Text " series:"; Endl] in
    let! _ := loop (fun s => let! o' := insert_serie o s in put o' [Endl]) ss in
    ret o.

  (** src/Serie.cxx:76-86 *)
  Definition dump (s : Serie T) : M Out unit :=
    let! _ := forEach_v (fun t i =>
                let! _ := put Cerr [IntT i; Text ": "] in
                let! _ := loop (fun x => put Cerr [NumT x; Text " "]) t in
                put Cerr [Endl]) s in
    put Cerr [Endl].

  (** src/Serie.cxx:132-142 [df::print(const Array&)] *)
  Definition print_values (v : list T) : M Out unit :=
    if 0 <? len v then
      let! _ := put Cerr [Text "["] in
      insert_values v
    else put Cerr [Text "[]"].

  (** utils/utils.h:32-45 [info], [warning], [error]; the colour codes around the label are left out *)
  Definition info (msg : String.string) : M Out unit := put Cout [Text "Info : "; Text msg; Endl].
  Definition warning (msg : String.string) : M Out unit := put Cerr [Text "Warn : "; Text msg; Endl].
  Definition error (msg : String.string) : M Out unit := put Cerr [Text "Error: "; Text msg; Endl].

  (** utils/utils.h:47-53 [log]: one token per argument *)
  Definition log (arg : token T) (args : list (token T)) : M Out unit :=
    let! _ := put Cout [arg] in
    loop (fun a => put Cout [Text " "; a]) args.
End Streams.
Arguments Out T : clear implicits.
