(** * Programs given in the comments of the headers.

    The numbers of the comments are replaced by arbitrary ones.  Left out because they do not compile: filter.h:142-145 (nine
    numbers in braces are no Serie, the Serie is given twice), filter.h:159-160 and 233-234 ([get] of a std::vector), reduce.h:67-77 (Serie
    first; the call with the function first is used here), Dataframe.h:36 ([array()]), if.h, macros.h:33-37 (see Make.v). *)
From Verif Require Import Base Num Serie Functional Utils Mathf Streams.
From Coq Require String.
Import String.StringSyntax.
Open Scope num_scope.

Section DocComments.
  Context {T : Type} `{Num T}.

  (** inline/Serie.hxx:109-111, [s.get(i)] without a type: the default argument of Serie.h:100, [Array], is taken whatever
      the item size *)
  Definition get_plain (s : Serie T) (i : Z) : outcome (list T) := get_array s i.

  (** Serie.h:52-55, [std::cerr << v << std::endl] in a callback that takes Arrays *)
  Definition show_arrays (s : Serie T) : M (Out T) unit :=
    forEach_v (fun v _ => let! o := insert_array Cerr v in put o [Endl]) s.
  (** Serie.h:60-63, the same for numbers *)
  Definition show_numbers (s : Serie T) : M (Out T) unit :=
    forEach_s (fun v _ => put Cerr [NumT v; Endl]) s.

  (** reduce.h:66-77: the sum of numbers, the sum of Arrays; [n] is [acc.size()] *)
  Definition sum_numbers (s : Serie T) : M unit T := reduce_s (fun acc v _ => ret (acc [+] v)) s (n_of_Z 0).
  Definition sum_arrays (s : Serie T) (size : Z) : M unit (Serie T) :=
    reduce_v (fun acc v _ =>
      lift (foldO (fun result i => let* a := rd acc i in let* x := rd v i in wr result i (a [+] x)) (iota (len acc)) (replicate (len acc) (n_of_Z 0))))
      s (replicate size (n_of_Z 0)).

  (** pipe.h:60-63 *)
  Definition doubled (s : Serie T) : M unit (Serie T) := pipe s [map_ss (fun v _ => ret (v [*] n_of_Z 2))].

  (** filter.h:136-139; [(int)v % 2] is undefined for a number that does not fit into an int *)
  Definition evens (s : Serie T) : M unit (Serie T) :=
    filter_s (fun v _ => let! i := lift (n_to_s32 v) in ret (Z.rem i 2 =? 0)) s.

  (** utils/partition.h:33-39, filter.h:149-157; the stress and the positions are any Series *)
  Definition compressive (s : Serie T) : M unit (Serie T * Serie T) :=
    partition_v (fun v _ => lift (let* x := rd v 0 in Ok (n_ltb x (n_of_Z 0)))) s.
End DocComments.
