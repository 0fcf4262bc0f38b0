(** * examples/stress-state/main.cxx: its pipeline.

    The program is not part of the build (examples/CMakeLists.txt:23 only adds critical-stress), and it includes
    unzip.h, reject.h and zip.h under paths that do not exist (main.cxx:25-28).  Modelled are the calls of its pipeline
    (main.cxx:66-84), which are to functions of the library; left out are the binding of the returned vector to two
    names (line 66) and the [reduce] with a [std::map] accumulator (lines 87-106), for which reduce.h:80-98 has no
    overload. *)
From Verif Require Import Base Num Serie Functional Utils.
Open Scope Z_scope.
Open Scope num_scope.

Section StressState.
  Context {T : Type} `{Num T}.

  (** main.cxx:70-73; [data[6]] is not checked *)
  Definition too_far (data : list T) (_ : Z) : M unit bool :=
    lift (let* d := rd data 6 in Ok (n_ltb (n_of_Z 2) d)).
  (** main.cxx:76-79; no index is checked *)
  Definition compressive (data : list T) (_ : Z) : M unit bool :=
    lift (let* xx := rd data 0 in let* yy := rd data 3 in let* zz := rd data 5 in
          Ok (n_ltb (xx [+] yy [+] zz) (n_of_Z 0))).
  (** main.cxx:66-84; [sizes] is [{6, 1}] in the program *)
  Definition pipeline (sizes : list Z) (stress distances rockTypes : Serie T) : outcome (list (Serie T)) :=
    let* z := zip_series [stress; distances; rockTypes] in
    let* near := run (reject_v too_far z) in
    let* combined := run (filter_v compressive near) in
    unzip combined sizes.
  Definition stress_state := pipeline [6; 1].
End StressState.
