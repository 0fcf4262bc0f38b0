(** * The class [Dataframe]: src/Dataframe.cxx, include/dataframe/Dataframe.h, src/utils/nameOfSerie.cxx *)
From Verif Require Import Base Num Serie.
From Coq Require String.
Import String.StringSyntax.
Delimit Scope string_scope with string.
Notation string := String.string.

Section DataframeModel.
  Context {T : Type} `{Num T}.

  (** A node of [std::map<std::string, Serie>]: the name, the address of the Serie, the Serie.  Nodes do not move.
      Addresses are compared by [nameOfSerie] only. *)
  Definition entry : Type := string * (Z * Serie T).
  (** Dataframe.h:70-71.  The map is the list of its nodes in increasing order of the names ([std::less] on [std::string]
      compares bytes as unsigned numbers). *)
  Record Dataframe : Type := mkDataframe { df_count : Z; df_series : list entry }.

  (** Dataframe.cxx:31-33 *)
  Definition df_new (count : Z) : Dataframe := mkDataframe count [].

  (** [series_[name]]: finds the node or inserts one, with a default Serie at the address [a] *)
  Fixpoint map_at (a : Z) (name : string) (m : list entry) : list entry :=
    match m with
    | [] => [(name, (a, serie_default))]
    | e :: r => match String.compare name (fst e) with
                | Lt => (name, (a, serie_default)) :: e :: r
                | Eq => e :: r
                | Gt => e :: map_at a name r
                end
    end.
  (** a change of the Serie that [series_[name]] refers to *)
  Fixpoint map_modify (name : string) (f : Serie T -> Serie T) (m : list entry) : list entry :=
    match m with
    | [] => []
    | (k, (a, s)) :: r => if String.eqb k name then (k, (a, f s)) :: r else (k, (a, s)) :: map_modify name f r
    end.
  (** [series_.find(name)] / the loops of the const look-ups *)
  Fixpoint map_find (name : string) (m : list entry) : option (Z * Serie T) :=
    match m with
    | [] => None
    | (k, c) :: r => if String.eqb k name then Some c else map_find name r
    end.
  Fixpoint map_erase (name : string) (m : list entry) : list entry :=
    match m with
    | [] => []
    | (k, c) :: r => if String.eqb k name then r else (k, c) :: map_erase name r
    end.

  (** Dataframe.cxx:35-37 *)
  Definition df_clear (d : Dataframe) : Dataframe := mkDataframe (df_count d) [].

  (** Dataframe.cxx:60-75.  A count that differs is not refused (the [throw] is commented out). *)
  Definition df_add (a : Z) (d : Dataframe) (name : string) (serie : Serie T) : Dataframe :=
    mkDataframe (if df_count d =? 0 then count serie else df_count d)
                (map_modify name (fun t => serie_assign t serie) (map_at a name (df_series d))).
  (** Dataframe.cxx:77-83 *)
  Definition df_set := df_add.

  (** Dataframe.cxx:39-42; [itemSize] is converted from [uint32_t] to [int] *)
  Definition df_create (a : Z) (d : Dataframe) (name : string) (itemSize count : Z) : Dataframe :=
    df_add a d name (serie_n (s32 itemSize) count 3).

  (** Dataframe.cxx:44-58 *)
  Definition df_setCount (d : Dataframe) (count : Z) : Dataframe :=
    if negb (df_count d =? count) && (0 <? count)
    then mkDataframe count (map (fun e => (fst e, (fst (snd e), reCount (snd (snd e)) count))) (df_series d))
    else d.

  (** Dataframe.cxx:85-92 *)
  Definition df_del (d : Dataframe) (name : string) : Dataframe :=
    match map_find name (df_series d) with
    | Some _ => mkDataframe (df_count d) (map_erase name (df_series d))
    | None => d
    end.

  (** Dataframe.cxx:94-102, non-const [operator[]] and [get]: the Dataframe afterwards *)
  Definition df_ref (a : Z) (d : Dataframe) (name : string) : Dataframe :=
    mkDataframe (df_count d) (map_at a name (df_series d)).
  (** a change made through the reference they return *)
  Definition df_modify (a : Z) (d : Dataframe) (name : string) (f : Serie T -> Serie T) : Dataframe :=
    mkDataframe (df_count d) (map_modify name f (map_at a name (df_series d))).

  (** Dataframe.cxx:104-132, const [operator[]] and [get]: the Serie referred to; [fake] when absent *)
  Definition df_get (d : Dataframe) (name : string) : Serie T :=
    match map_find name (df_series d) with Some c => snd c | None => serie_default end.

  (** Dataframe.cxx:140-150 *)
  Definition df_contains_name (d : Dataframe) (name : string) : bool :=
    match map_find name (df_series d) with Some _ => true | None => false end.

  (** nameOfSerie.cxx:30-39; the Serie is given by its address *)
  Definition nameOfSerie (d : Dataframe) (serie : Z) : string :=
    match find (fun e : entry => fst (snd e) =? serie) (df_series d) with
    | Some e => fst e
    | None => ""%string
    end.

  (** Dataframe.cxx:134-138 *)
  Definition df_contains_serie (d : Dataframe) (serie : Z) : bool :=
    if Nat.eqb (String.length (nameOfSerie d serie)) 0 then false else true.

  (** ** Calls of the public interface.  Calls that may insert a node carry the address it would get. *)
  Inductive dcall : Type :=
  | DAdd (a : Z) (name : string) (serie : Serie T)
  | DSet (a : Z) (name : string) (serie : Serie T)
  | DCreate (a : Z) (name : string) (itemSize count : Z)
  | DDel (name : string)
  | DClear
  | DRef (a : Z) (name : string)
  | DModify (a : Z) (name : string) (f : Serie T -> Serie T)
  | DSetCount (count : Z).

  Definition dstep (d : Dataframe) (c : dcall) : Dataframe :=
    match c with
    | DAdd a n s => df_add a d n s
    | DSet a n s => df_set a d n s
    | DCreate a n k c => df_create a d n k c
    | DDel n => df_del d n
    | DClear => df_clear d
    | DRef a n => df_ref a d n
    | DModify a n f => df_modify a d n f
    | DSetCount c => df_setCount d c
    end.
  Definition drun (cs : list dcall) (d : Dataframe) : Dataframe := fold_left dstep cs d.
End DataframeModel.
Arguments Dataframe T : clear implicits.
Arguments entry T : clear implicits.
Arguments dcall T : clear implicits.
