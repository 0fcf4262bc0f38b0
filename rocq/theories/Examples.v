(** * The programs of /repo/examples that compile: parallel-postprocess and critical-stress.

    examples/stress-state is not built (it includes headers that do not exist, and examples/CMakeLists.txt leaves it out; its
    pipeline is in StressState.v) and
    examples/parallel-jacobi-solver has an empty [main]. *)
From Verif Require Import Base Num Serie Functional Mathf Geo Eigen Stats.
Open Scope Z_scope.
Open Scope num_scope.

Section PostProcess.
  Context {T : Type} `{Num T}.

  (** examples/parallel-postprocess/main.cxx:62-142: the members [pos_] and [U_]; [nu] and [mu] are never changed *)
  Record Source := mkSource { src_pos : list T; src_U : list T }.
  Definition nu : T := n_ratio 1 4.
  Definition mu : T := n_of_Z 1.

  (** main.cxx:65-135 [Source::stress]; the locals c1, r4, nx, ny, nz are not used and left out *)
  Definition stress (s : Source) (at_ : list T) : outcome (list T) :=
    let* x := rd at_ 0 in
    let* y := rd at_ 1 in
    let* z := rd at_ 2 in
    let* p0 := rd (src_pos s) 0 in
    let* p1 := rd (src_pos s) 1 in
    let* p2 := rd (src_pos s) 2 in
    let dx := x [-] p0 in
    let dy := y [-] p1 in
    let dz := z [-] p2 in
    let r := n_sqrt (dx [*] dx [+] dy [*] dy [+] dz [*] dz) in
    if n_ltb r (n_ratio 1 10000000000) then Ok [n0; n0; n0; n0; n0; n0]
    else
      let r2 := r [*] r in
      let r3 := r2 [*] r in
      let r5 := r3 [*] r2 in
      let a := n_of_Z 2 [*] mu in
      let lambda := a [*] nu [/] (n_of_Z 1 [-] n_of_Z 2 [*] nu) in
      let c2 := n_of_Z 3 [-] n_of_Z 4 [*] nu in
      let D1 := c2 [/] r3 [-] n_of_Z 3 [/] r5 [*] (dx [*] dx) in
      let D2 := c2 [/] r3 [-] n_of_Z 3 [/] r5 [*] (dy [*] dy) in
      let D3 := c2 [/] r3 [-] n_of_Z 3 [/] r5 [*] (dz [*] dz) in
      let D4 := n_opp (n_of_Z 3 [/] r5) [*] (dx [*] dy) in
      let D5 := n_opp (n_of_Z 3 [/] r5) [*] (dy [*] dz) in
      let D6 := n_opp (n_of_Z 3 [/] r5) [*] (dx [*] dz) in
      let m := n_of_Z (-1) [/] r3 in
      let* ux := rd (src_U s) 0 in
      let* uy := rd (src_U s) 1 in
      let* uz := rd (src_U s) 2 in
      let dux_dx := ux [*] D1 [+] uy [*] D4 [+] uz [*] D6 in
      let dux_dy := ux [*] D4 [+] uy [*] m [+] uz [*] n0 in
      let dux_dz := ux [*] D6 [+] uy [*] n0 [+] uz [*] m in
      let duy_dx := uy [*] D4 [+] ux [*] m [+] uz [*] n0 in
      let duy_dy := uy [*] D2 [+] ux [*] D4 [+] uz [*] D5 in
      let duy_dz := uy [*] D5 [+] ux [*] n0 [+] uz [*] m in
      let duz_dx := uz [*] D6 [+] ux [*] m [+] uy [*] n0 in
      let duz_dy := uz [*] D5 [+] ux [*] n0 [+] uy [*] m in
      let duz_dz := uz [*] D3 [+] ux [*] D6 [+] uy [*] D5 in
      let b := lambda [*] (dux_dx [+] duy_dy [+] duz_dz) in
      Ok [a [*] dux_dx [+] b; mu [*] (dux_dy [+] duy_dx); mu [*] (dux_dz [+] duz_dx);
          a [*] duy_dy [+] b; mu [*] (duy_dz [+] duz_dy); a [*] duz_dz [+] b].

  (** main.cxx:148-153 [Model(nbSources)]: the parameter is not used; every position gets the vector (1,0,0) of main.cxx:64 *)
  Definition model_sources (nbSources : Z) : outcome (list Source) :=
    let* g := from_points [100; 100] [n_of_Z (-1); n_of_Z (-1); n_of_Z (-1)] [n_of_Z 1; n_of_Z 1; n_of_Z 1] in
    let (r, sources) := forEach_v (fun pos _ st => (Ok tt, st ++ [mkSource pos [n_of_Z 1; n_of_Z 0; n_of_Z 0]])) g [] in
    let* _ := r in
    Ok sources.

  (** main.cxx:155-166 [Model::operator()] *)
  Definition model_at (sources : list Source) (at_ : list T) : outcome (list T) :=
    foldO (fun s source =>
             let* t := stress source at_ in
             upd_each 6 (fun i x => let* y := rd t i in Ok (x [+] y)) s)
      sources [n0; n0; n0; n0; n0; n0].
  Definition model_call (sources : list Source) (points : Serie T) : outcome (Serie T) :=
    run (map_vv (fun at_ _ => lift (model_at sources at_)) points).
End PostProcess.

Section Critical.
  Context {T : Type} `{Num T} (n_exp : T -> T).

  (** examples/critical-stress/main.cxx:56-75: the lambda [computeCriticalityIndex] *)
  Definition criticality (cohesion friction_angle : T) (stress positions : Serie T) : outcome (Serie T) :=
    foldO (fun result i =>
             let* values := get_array stress i in
             let* pos := get_array positions i in
             let* sigma1 := rd values 0 in
             let* sigma3 := rd values 2 in
             let deviatoric := sigma1 [-] sigma3 in
             let critical_stress := n_of_Z 2 [*] cohesion [*] n_cos friction_angle [/] (n_of_Z 1 [-] n_sin friction_angle) in
             let* z := rd pos 2 in
             let depth_factor := n_exp (n_opp (n_opp z) [/] n_of_Z 1000) in
             set_double result i (deviatoric [/] critical_stress [*] depth_factor))
      (iota (count stress)) (serie_n 1 (count stress) 3).

  (** main.cxx:88-109: the items whose first (largest) principal value is negative, of both Series *)
  Definition negative_items (stress_values : Serie T) : outcome (list Z) :=
    foldO (fun indices i =>
             let* v := get_array stress_values i in
             let* v0 := rd v 0 in
             Ok (if n_ltb v0 (n_of_Z 0) then indices ++ [i] else indices))
      (iota (count stress_values)) [].
  Definition pick_items (indices : list Z) (s : Serie T) : outcome (Serie T) :=
    foldO (fun result i =>
             let* j := rd indices i in
             let* v := get_array s j in
             set_array result i v)
      (iota (len indices)) (serie_n (itemSize s) (len indices) 3).

  (** main.cxx:77-124: the pipeline and the mean; what is written to std::cerr on the way is left out *)
  Definition critical_main (cohesion friction_angle : T) (stress positions : Serie T) : outcome (Serie T * tuple T) :=
    let* vv := eigenSystem stress in
    let val := fst vv in
    let* indices := negative_items val in
    let* filtered_positions := pick_items indices positions in
    let* filtered_stress := pick_items indices val in
    let* result := criticality cohesion friction_angle filtered_stress filtered_positions in
    let* m := mean result in
    Ok (result, m).
End Critical.
