(** * Operations made for pipes: the macro MAKE_OP of include/dataframe/functional/macros.h. *)
From Verif Require Import Base Num Serie.

(** macros.h:40-45: [make_op(cb)(serie)] is [op(cb, serie)], so what is piped is the second argument. *)
Definition make_op {A B X} (op : A -> B -> X) (cb : A) : B -> X := fun serie => op cb serie.

Section Make.
  Context {T : Type} `{Num T}.

  (** Serie.h:71: the constructor is not [explicit] and all its arguments have defaults, so a number passed where a Serie is
      expected is converted: to [int], which is the item size of a Serie without items. *)
  Definition serie_of_number (x : T) : outcome (Serie T) :=
    let* k := n_to_s32 x in Ok (serie_n k 0 3).

  (** [make_op(c)] with a number [c], for an [op] that has only the overload with two Series or whose overload with a number takes
      it as second argument: [op(c, serie)] converts [c].  So compile [sub], [mult], [cross], [equals] and [covariance]; [add] does
      not (its template is preferred and calls [itemSize] on the number), nor do [scale], [quantile], [bins], [insar] and [fringes]
      (they would need a number made of a Serie). *)
  Definition make_op_number {X} (op : Serie T -> Serie T -> outcome X) (c : T) : Serie T -> outcome X :=
    fun serie => let* t := serie_of_number c in op t serie.
End Make.
