(** * src/functional/geo and include/dataframe/functional/geo/cartesian_grid.h. *)
From Verif Require Import Base Num Serie Functional Mathf Algebra.
Open Scope Z_scope.
Open Scope num_scope.

Section Geo.
  Context {T : Type} `{Num T}.

  (** ** normals.cxx:36-71 *)
  (** normals.cxx:62-64 *)
  Definition create (v1 v2 : list T) : outcome (list T) :=
    let* x2 := rd v2 0 in let* x1 := rd v1 0 in
    let* y2 := rd v2 1 in let* y1 := rd v1 1 in
    let* z2 := rd v2 2 in let* z1 := rd v1 2 in
    Ok [x2 [-] x1; y2 [-] y1; z2 [-] z1].
  (** normals.cxx:66-71 *)
  Definition geo_cross (v w : list T) : outcome (list T) :=
    let* v0 := rd v 0 in let* v1 := rd v 1 in let* v2 := rd v 2 in
    let* w0 := rd w 0 in let* w1 := rd w 1 in let* w2 := rd w 2 in
    Ok [v1 [*] w2 [-] v2 [*] w1; v2 [*] w0 [-] v0 [*] w2; v0 [*] w1 [-] v1 [*] w0].
  (** [positions.value(t[k])]: the number is converted to [uint32_t] *)
  Definition vertex (positions : Serie T) (t : list T) (k : Z) : outcome (list T) :=
    let* x := rd t k in let* i := n_to_u32 x in value positions i.
  (** normals.cxx:49-57, the state is [data] and [i] *)
  Definition normal_step (positions : Serie T) (t : list T) (_ : Z) : M (list T * Z) unit := fun st =>
    let '(data, i) := st in
    match (let* v1 := vertex positions t 0 in
           let* v2 := vertex positions t 1 in
           let* v3 := vertex positions t 2 in
           let* e1 := create v1 v2 in
           let* e2 := create v1 v3 in
           let* n := geo_cross e1 e2 in
           let* n0 := rd n 0 in
           let* data := wr data i n0 in
           let* n1 := rd n 1 in
           let* data := wr data (u32 (i + 1)) n1 in
           let* n2 := rd n 2 in
           let* data := wr data (u32 (i + 2)) n2 in
           Ok (data, u32 (i + 3))) with
    | Ok st' => (Ok tt, st')
    | Throw e => (Throw e, st)
    | UB => (UB, st)
    end.
  Definition normals (positions indices : Serie T) : outcome (Serie T) :=
    if negb (isValid positions) || negb (isValid indices) then Ok serie_default
    else if negb (itemSize positions =? 3) || negb (itemSize indices =? 3) then Ok serie_default
    else
      let '(r, (data, _)) := forEach_v (normal_step positions) indices (createArray (u32 (count indices * 3)) (n_of_Z 0), 0) in
      let* _ := r in
      serie_of 3 data 3.

  (** areas.cxx:32-37.  The literal [2] is converted to the Serie [Serie(2)] without items: the only viable overload is
      [div(const Serie &divider, const Serie &serie)]. *)
  Definition areas (positions indices : Serie T) : outcome (Serie T) :=
    if negb (isValid positions) || negb (isValid indices) then Ok serie_default
    else
      let* n := normals positions indices in
      let* l := norm n in
      div_serie l (serie_n 2 0 3).

  (** insar.cxx:37-47 *)
  Definition insar (u : Serie T) (los : list T) : outcome (Serie T) :=
    if negb (isValid u) || negb (itemSize u =? 3) then Ok serie_default
    else if negb (len los =? 3) then Ok serie_default
    else dot_array u los.
  (** insar.cxx:49 *)
  Definition frac (val : T) : T := val [-] n_floor val.
  (** insar.cxx:57-65 *)
  Definition fringes (s : Serie T) (fringeSpacing : T) : outcome (Serie T) :=
    if negb (isValid s) || negb (itemSize s =? 1) then Ok serie_default
    else run (map_vv (fun v _ => lift (let* x := rd v 0 in Ok [n_abs (fringeSpacing [*] frac (x [/] fringeSpacing))])) s).

  (** ** cartesian_grid.h *)
  (** [uint32_t total = 1; for (auto n : npts) total *= n;] lines 62-65, 122-125 *)
  Definition total_points (npts : list Z) : Z := fold_left (fun total n => u32 (total * n)) npts 1.
  (** [n.resize(3, 1)] *)
  Definition resized (npts : list Z) : list Z := npts ++ replicate (3 - len npts) 1.
  (** [Array spacing(3); spacing[i] = npts[i] > 1 ? (...) / (npts[i] - 1) : 0] lines 71-74, 131-134; [extent] is the length in
      one dimension *)
  Definition spacings (npts : list Z) (extent : Z -> outcome T) : outcome (list T) :=
    foldO (fun spacing i =>
      let* n := rd npts i in
      let* d := (if 1 <? n then let* e := extent i in Ok (e [/] n_of_Z (n - 1)) else Ok (n_of_Z 0)) in
      wr spacing i d) (iota (len npts)) (replicate 3 n0).
  (** the three loops, lines 81-90 and 141-149; the state is [result] and [index] *)
  Definition fill_grid (n : list Z) (point : Z -> Z -> Z -> outcome (list T)) (result : Serie T) : outcome (Serie T) :=
    let* n2 := rd n 2 in let* n1 := rd n 1 in let* n0 := rd n 0 in
    let* st := foldO (fun st k => foldO (fun st j => foldO (fun st i =>
      let* p := point i j k in
      let* r := set_array (fst st) (snd st) p in
      Ok (r, u32 (snd st + 1))) (iota n0) st) (iota n1) st) (iota n2) (result, 0) in
    Ok (fst st).
  (** cartesian_grid.h:50-93 *)
  Definition from_dims (npts : list Z) (center dimensions : list T) : outcome (Serie T) :=
    if (len npts =? 0) || (3 <? len npts) then Throw InvalidArgument
    else if negb (len center =? 3) || negb (len dimensions =? 3) then Throw InvalidArgument
    else
      let result := serie_n 3 (total_points npts) 3 in
      let* spacing := spacings npts (rd dimensions) in
      let coord (d i : Z) : outcome T :=
        let* c := rd center d in let* e := rd dimensions d in let* s := rd spacing d in
        Ok (c [-] e [/] n_of_Z 2 [+] n_of_Z i [*] s) in
      fill_grid (resized npts) (fun i j k => let* x := coord 0 i in let* y := coord 1 j in let* z := coord 2 k in Ok [x; y; z]) result.
  (** cartesian_grid.h:113-152 *)
  Definition from_points (npts : list Z) (p1 p2 : list T) : outcome (Serie T) :=
    if (len npts =? 0) || (3 <? len npts) then Throw InvalidArgument
    else if negb (len p1 =? 3) || negb (len p2 =? 3) then Throw InvalidArgument
    else
      let result := serie_n 3 (total_points npts) 3 in
      let* delta := spacings npts (fun i => let* b := rd p2 i in let* a := rd p1 i in Ok (b [-] a)) in
      let coord (d i : Z) : outcome T :=
        let* a := rd p1 d in let* s := rd delta d in
        Ok (a [+] n_of_Z i [*] s) in
      fill_grid (resized npts) (fun i j k => let* x := coord 0 i in let* y := coord 1 j in let* z := coord 2 k in Ok [x; y; z]) result.
End Geo.
