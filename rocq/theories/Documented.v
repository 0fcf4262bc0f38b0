(** * Programs given in README.md. *)
From Verif Require Import Base Num Serie Functional Utils Mathf Streams.
From Coq Require String.
Import String.StringSyntax.
Open Scope num_scope.

Section Documented.
  Context {T : Type} `{Num T}.

  (** README.md:348-364, weighted sum *)
  Definition documented_sum (a b c : Serie T) : outcome (Serie T) := weigthedSum [a; b; c] [n_of_Z 2; n_of_Z 3; n_of_Z 4].
  Definition show_sum (a b c : Serie T) : M (Out T) stream :=
    let! s := lift (documented_sum a b c) in insert_serie Cout s.

  (** README.md:389-420, chaining and the same with [pipe]; [pow(x, 2)] is taken as x * x.  The item size of the Series is not
      fixed here *)
  Definition norm_of (arr : list T) : outcome T :=
    let* x := rd arr 0 in let* y := rd arr 1 in let* z := rd arr 2 in
    Ok (n_sqrt (x [*] x [+] y [*] y [+] z [*] z)).
  Definition documented_chain (a b c : Serie T) : M (Out T) unit :=
    let! s := lift (documented_sum a b c) in
    let! m := map_vs (fun arr _ => lift (norm_of arr)) s in
    forEach_s (fun v i => put Cout [IntT i; Text ": "; NumT v; Endl]) m.

  (** README.md:302-323, forEach over three Series; the Arrays of one index, in the order of the Series *)
  Definition documented_forEach (s1 s2 s3 : Serie T) : M (Out T) unit :=
    forEach_n (fun vs i =>
      let! v1 := lift (rd vs 0) in let! v2 := lift (rd vs 1) in let! v3 := lift (rd vs 2) in
      let! _ := put Cout [Text "Index "; IntT i; Text ":"; Endl; Text "  v1 = "] in
      let! o := insert_array Cout v1 in
      let! _ := put o [Text "  v2 = "] in
      let! o := insert_array o v2 in
      let! _ := put o [Text "  v3 = "] in
      let! o := insert_array o v3 in
      put o [Endl]) [s1; s2; s3].
End Documented.
