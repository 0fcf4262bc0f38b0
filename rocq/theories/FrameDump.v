(** * Dataframe::dump. *)
From Verif Require Import Base Num Serie Functional Utils Dataframe Streams.
From Coq Require String.
Import String.StringSyntax.

Section FrameDump.
  Context {T : Type} `{Num T}.
  (** Dataframe.cxx:152-161: the map is traversed in its own order; everything goes to std::cerr *)
  Definition df_dump (d : Dataframe T) : M (Out T) unit :=
    loop (fun e : entry T =>
            put Cerr [Text "name: """; Text (fst e); Text """, itemSize: "; IntT (itemSize (snd (snd e)));
                      Text ", count: "; IntT (count (snd (snd e))); Endl]) (df_series d).
End FrameDump.
