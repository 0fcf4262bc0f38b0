(** * src/functional/algebra/eigen.cxx: Jacobi's method for symmetric matrices. *)
From Verif Require Import Base Num Serie Functional Mathf.
Open Scope Z_scope.
Open Scope num_scope.

Section Eigen.
  Context {T : Type} `{Num T}.

  (** eigen.cxx:206-372 [symmetricEigen].  The pointers [a] and [v] are moved back by one (221, 234): [a[ij]] of the source is
      [rd a (ij - 1)].  The counters [ilv], [imv] (286-287, 310-311) are [n*(l-1)+i] and [n*(m-1)+i] when used.  [new] does
      not fail. *)

  (** eigen.cxx:208: [EPS = 0.00001] *)
  Definition eps : T := n_ratio 1 100000.

  (** eigen.cxx:222-232: the identity matrix, row by row *)
  Definition identity (n : Z) : list T :=
    flat_map (fun i => map (fun j => if i =? j then n_of_Z 1 else n_of_Z 0) (iota n)) (iota n).

  (** eigen.cxx:235-246: sum of the squares of the entries off the diagonal; [ij] and [a_norm] are the state *)
  Definition off_norm (n : Z) (a : list T) : outcome T :=
    let* r := foldO (fun st i =>
      foldO (fun (st : Z * T) j =>
        let* s := (if negb (i =? j) then let* x := rd a (fst st - 1) in Ok (snd st [+] x [*] x) else Ok (snd st)) in
        Ok (fst st + 1, s)) (iota_from 1 (i + 1)) st) (iota_from 1 (n + 1)) (1, n_of_Z 0) in
    Ok (snd r).

  (** eigen.cxx:289-316: the loop over [i] of one rotation *)
  Definition rot_step (n l m : Z) (sinx cosx : T) (av : list T * list T) (i : Z) : outcome (list T * list T) :=
    let lq := (l * l - l) / 2 in
    let mq := (m * m - m) / 2 in
    let* a := (if negb (i =? l) && negb (i =? m) then
        let iq := (i * i - i) / 2 in
        let im := if i <? m then i + mq else m + iq in
        let* a_im := rd (fst av) (im - 1) in
        let il := if i <? l then i + lq else l + iq in
        let* a_il := rd (fst av) (il - 1) in
        let* a1 := wr (fst av) (il - 1) (a_il [*] cosx [-] a_im [*] sinx) in
        wr a1 (im - 1) (a_il [*] sinx [+] a_im [*] cosx)
      else Ok (fst av)) in
    let ilv := n * (l - 1) + i in
    let imv := n * (m - 1) + i in
    let* v_ilv := rd (snd av) (ilv - 1) in
    let* v_imv := rd (snd av) (imv - 1) in
    let* v1 := wr (snd av) (ilv - 1) (cosx [*] v_ilv [-] sinx [*] v_imv) in
    let* v2 := wr v1 (imv - 1) (sinx [*] v_ilv [+] cosx [*] v_imv) in
    Ok (a, v2).

  (** eigen.cxx:258-324: one pair (l, m); [a], [v], [thr] are the state *)
  Definition jacobi_state : Type := (list T * list T) * T.
  Definition angle (a_lm a_ll a_mm : T) : T :=
    let delta := a_ll [-] a_mm in
    if n_eqb delta (n_of_Z 0) then n_opp n_pi [/] n_of_Z 4
    else n_opp (n_atan ((a_lm [+] a_lm) [/] delta)) [/] n_of_Z 2.
  Definition pair_step (n : Z) (thr_nn : T) (st : jacobi_state) (l m : Z) : outcome jacobi_state :=
    let '((a, v), thr) := st in
    let lq := (l * l - l) / 2 in
    let mq := (m * m - m) / 2 in
    let lm := l + mq in
    let* a_lm := rd a (lm - 1) in
    let a_lm_2 := a_lm [*] a_lm in
    if n_ltb a_lm_2 thr_nn then Ok st
    else
      let ll := l + lq in
      let mm := m + mq in
      let* a_ll := rd a (ll - 1) in
      let* a_mm := rd a (mm - 1) in
      let x := angle a_lm a_ll a_mm in
      let sinx := n_sin x in
      let cosx := n_cos x in
      let sinx_2 := sinx [*] sinx in
      let cosx_2 := cosx [*] cosx in
      let sincos := sinx [*] cosx in
      let* av := foldO (rot_step n l m sinx cosx) (iota_from 1 (n + 1)) (a, v) in
      let x1 := a_lm [*] sincos in
      let x2 := x1 [+] x1 in
      let* a1 := wr (fst av) (ll - 1) (a_ll [*] cosx_2 [+] a_mm [*] sinx_2 [-] x2) in
      let* a2 := wr a1 (mm - 1) (a_ll [*] sinx_2 [+] a_mm [*] cosx_2 [+] x2) in
      let* a3 := wr a2 (lm - 1) (n_of_Z 0) in
      Ok ((a3, snd av), n_abs (thr [-] a_lm_2)).

  (** eigen.cxx:254-257, 325-326: one pass over all pairs *)
  Definition sweep (n : Z) (st : jacobi_state) : outcome jacobi_state :=
    let nn := (n * (n + 1)) / 2 in
    let thr_nn := snd st [/] n_of_Z nn in
    foldO (fun st l => foldO (fun st m => pair_step n thr_nn st l m) (iota_from (l + 1) (n + 1)) st) (iota_from 1 n) st.

  (** eigen.cxx:252-253: [left] is [MAX_ITER - nb_iter].  The number of passes made is returned too (it is not used by the
      source after the loop). *)
  Fixpoint sweeps (n : Z) (bound : T) (left : nat) (done : Z) (st : jacobi_state) : outcome (jacobi_state * Z) :=
    match left with
    | O => Ok (st, done)
    | S left' =>
        if n_ltb bound (snd st)
        then let* st' := sweep n st in sweeps n bound left' (done + 1) st'
        else Ok (st, done)
    end.

  (** eigen.cxx:217-219, 248-251 *)
  Definition jacobi (n : Z) (mat : list T) : outcome (jacobi_state * Z) :=
    let* a := mapO (rd mat) (iota ((n * (n + 1)) / 2)) in
    let* a_norm := off_norm n a in
    if negb (n_eqb a_norm (n_of_Z 0))
    then sweeps n (a_norm [*] eps) 100 0 ((a, identity n), a_norm)
    else Ok (((a, identity n), a_norm), 0).

  (** eigen.cxx:337-358: selection sort, largest first; [eigen_val] and [index] are the state *)
  Definition sort_step (n : Z) (st : list T * list Z) (i : Z) : outcome (list T * list Z) :=
    let '(ev, index) := st in
    let* x0 := rd ev i in
    let* xk := foldO (fun (xk : T * Z) j =>
      let* y := rd ev j in
      Ok (if n_ltb (fst xk) y then (y, j) else xk)) (iota_from (i + 1) n) (x0, i) in
    let '(x, k) := xk in
    let* evi := rd ev i in
    let* ev1 := wr ev k evi in
    let* ev2 := wr ev1 i x in
    let* jj := rd index k in
    let* ii := rd index i in
    let* index1 := wr index k ii in
    let* index2 := wr index1 i jj in
    Ok (ev2, index2).
  Definition sort_eigen (n : Z) (ev : list T) : outcome (list T * list Z) :=
    foldO (sort_step n) (iota (n - 1)) (ev, iota n).

  (** eigen.cxx:328-368: the diagonal, sorted, and the vectors in the same order *)
  Definition symmetricEigen (n : Z) (mat : list T) : outcome (list T * list T) :=
    let* r := jacobi n mat in
    let '(((a, v), _), _) := r in
    let* diag := mapO (fun i => rd a (i + (i * (i + 1)) / 2)) (iota n) in
    let* s := sort_eigen n diag in
    let* vecs := mapO (fun k =>
      let* ik := rd (snd s) k in
      mapO (fun i => rd v (ik * n + i)) (iota n)) (iota n) in
    Ok (fst s, concat vecs).

  (** eigen.cxx:32-41, 71-80, 121-130 *)
  Definition eigen_refused (s : Serie T) : bool :=
    ((dimension s =? 2) && negb (itemSize s =? 3)) || ((dimension s =? 3) && negb (itemSize s =? 6)).
  (** eigen.cxx:47-50 and 59-65: [m] is filled anew for every item *)
  Definition load2 (mat : list T) : outcome (list T) :=
    let* m0 := rd mat 0 in let* m1 := rd mat 1 in let* m2 := rd mat 2 in Ok [m0; m1; m2].
  Definition load3 (mat : list T) : outcome (list T) :=
    let* m0 := rd mat 0 in let* m1 := rd mat 1 in let* m2 := rd mat 3 in
    let* m3 := rd mat 2 in let* m4 := rd mat 4 in let* m5 := rd mat 5 in Ok [m0; m1; m2; m3; m4; m5].
  Definition eigen2 (mat : list T) : outcome (list T * list T) := let* m := load2 mat in symmetricEigen 2 m.
  Definition eigen3 (mat : list T) : outcome (list T * list T) := let* m := load3 mat in symmetricEigen 3 m.

  (** eigen.cxx:31-68 *)
  Definition eigenValues (s : Serie T) : outcome (Serie T) :=
    if eigen_refused s then Throw RuntimeError
    else if (dimension s =? 2) && (itemSize s =? 3)
    then run (map_vv (fun mat _ => lift (let* r := eigen2 mat in Ok (fst r))) s)
    else run (map_vv (fun mat _ => lift (let* r := eigen3 mat in Ok (fst r))) s).
  (** eigen.cxx:70-110 *)
  Definition eigenVectors (s : Serie T) : outcome (Serie T) :=
    if eigen_refused s then Throw RuntimeError
    else if (dimension s =? 2) && (itemSize s =? 3)
    then run (map_vv (fun mat _ => lift (let* r := eigen2 mat in Ok (snd r))) s)
    else run (map_vv (fun mat _ => lift (let* r := eigen3 mat in Ok (snd r))) s).
  (** eigen.cxx:120-180.  [Serie values(2, count)] has dimension 3; the pair copies the Series *)
  Definition eigen_fill (eig : list T -> outcome (list T * list T)) (s values vectors : Serie T) : outcome (Serie T * Serie T) :=
    let* r := foldO (fun (vv : Serie T * Serie T) i =>
      let* mat := get_array s i in
      let* e := eig mat in
      let* values := set_array (fst vv) i (fst e) in
      let* vectors := set_array (snd vv) i (snd e) in
      Ok (values, vectors)) (iota (count s)) (values, vectors) in
    Ok (serie_copy (fst r), serie_copy (snd r)).
  Definition eigenSystem (s : Serie T) : outcome (Serie T * Serie T) :=
    if eigen_refused s then Throw RuntimeError
    else if (dimension s =? 2) && (itemSize s =? 3) then eigen_fill eigen2 s (serie_n 2 (count s) 3) (serie_n 4 (count s) 3)
    else if (dimension s =? 3) && (itemSize s =? 6) then eigen_fill eigen3 s (serie_n 3 (count s) 3) (serie_n 9 (count s) 3)
    else Ok (serie_default, serie_default).
End Eigen.
