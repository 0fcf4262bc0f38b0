(** * The function template [add] of include/dataframe/functional/math/sub.h. *)
From Verif Require Import Base Num Serie Functional Mathf.

Section SubAdd.
  Context {T : Type} `{Num T}.

  (** sub.h:57-71, as called in a file that includes sub.h and not add.h (both do not compile together).  There is no other
      [add] then, so two arguments come here too.  A call without argument does not compile; the model gives it the exception of
      the unreached check. *)
  Definition add_of_sub_h (series : list (Serie T)) : outcome (Serie T) :=
    match series with
    | [] => Throw InvalidArgument
    | first :: _ =>
        let* _ := countAndCheck series in
        foldO (fun result s => let* r := sub result s in Ok (serie_assign result r)) series
              (serie_n (s32 (itemSize first)) (count first) 3)
    end.
End SubAdd.
