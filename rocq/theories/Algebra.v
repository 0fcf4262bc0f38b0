(** * src/functional/algebra without the eigen decomposition. *)
From Verif Require Import Base Num Serie Functional Mathf Views.
Open Scope Z_scope.
Open Scope num_scope.

Section Algebra.
  Context {T : Type} `{Num T}.

  (** cross.cxx:29-48 *)
  Definition cross_item (A B : list T) : outcome (list T) :=
    let* a0 := rd A 0 in let* a1 := rd A 1 in let* a2 := rd A 2 in
    let* b0 := rd B 0 in let* b1 := rd B 1 in let* b2 := rd B 2 in
    Ok [a1 [*] b2 [-] a2 [*] b1; a2 [*] b0 [-] a0 [*] b2; a0 [*] b1 [-] a1 [*] b0].
  Definition cross (a b : Serie T) : outcome (Serie T) :=
    if negb (isValid a) then Throw InvalidArgument
    else if negb (isValid b) then Throw InvalidArgument
    else if negb (itemSize a =? 3) then Throw InvalidArgument
    else if negb (itemSize b =? 3) then Throw InvalidArgument
    else run (map_vv (fun A i => lift (let* B := value b i in cross_item A B)) a).

  (** det.cxx:32-53.  [s] is captured by copy, with its dimension. *)
  Definition det_item (itemSize dim : Z) (v : list T) : outcome (list T) :=
    if ((itemSize =? 3) || (itemSize =? 4)) && (dim =? 2) then
      let* m := (if len v =? 3 then symSquaredMatrix v else squaredMatrix v) in
      let* m00 := m_at m 0 0 in let* m11 := m_at m 1 1 in let* m01 := m_at m 0 1 in let* m10 := m_at m 1 0 in
      Ok [m00 [*] m11 [-] m01 [*] m10]
    else if ((itemSize =? 6) || (itemSize =? 9)) && (dim =? 3) then
      let* m := (if len v =? 6 then symSquaredMatrix v else squaredMatrix v) in
      let* m00 := m_at m 0 0 in let* m01 := m_at m 0 1 in let* m02 := m_at m 0 2 in
      let* m10 := m_at m 1 0 in let* m11 := m_at m 1 1 in let* m12 := m_at m 1 2 in
      let* m20 := m_at m 2 0 in let* m21 := m_at m 2 1 in let* m22 := m_at m 2 2 in
      Ok [m00 [*] m11 [*] m22 [-] m00 [*] m12 [*] m21 [-] m01 [*] m10 [*] m22 [+] m01 [*] m12 [*] m20
          [+] m02 [*] m10 [*] m21 [-] m02 [*] m11 [*] m20]
    else Throw InvalidArgument.
  Definition det (s : Serie T) : outcome (Serie T) :=
    if negb (isValid s) then Throw InvalidArgument
    else
      let s' := serie_copy s in
      run (map_vv (fun v _ => lift (det_item (itemSize s') (dimension s') v)) s).

  (** dot.cxx:29-39 *)
  Definition dot_item (itemSize : Z) (arr b : list T) : outcome (list T) :=
    foldO (fun r k =>
      let* x := rd arr k in
      let* y := rd b k in
      let* old := rd r 0 in
      wr r 0 (old [+] x [*] y)) (iota itemSize) (createArray 1 (n_of_Z 0)).
  Definition dot (a b : Serie T) : outcome (Serie T) :=
    run (map_vv (fun arr i => lift (let* bb := value b i in dot_item (itemSize a) arr bb)) a).
  (** dot.cxx:41-55 *)
  Definition dot_array (a : Serie T) (b : list T) : outcome (Serie T) :=
    let* a0 := value a 0 in
    if negb (len a0 =? len b) then Ok serie_default
    else run (map_vv (fun arr _ => lift (dot_item (itemSize a) arr b)) a).

  (** 1e-10, rounded to T *)
  Definition tiny : T := n_ratio 1 10000000000.

  (** inv.cxx:40-66 *)
  Definition inv6_item (t : list T) : outcome (list T) :=
    let* xx := rd t 0 in let* xy := rd t 1 in let* xz := rd t 2 in
    let* yy := rd t 3 in let* yz := rd t 4 in
    let* zz := rd t 5 in
    let det := xx [*] (yy [*] zz [-] yz [*] yz) [-] xy [*] (xy [*] zz [-] yz [*] xz) [+] xz [*] (xy [*] yz [-] yy [*] xz) in
    if n_ltb (n_abs det) tiny then Throw RuntimeError
    else
      let invDet := n_of_Z 1 [/] det in
      Ok [(yy [*] zz [-] yz [*] yz) [*] invDet;
          (xz [*] yz [-] xy [*] zz) [*] invDet;
          (xy [*] yz [-] xz [*] yy) [*] invDet;
          (xx [*] zz [-] xz [*] xz) [*] invDet;
          (xy [*] xz [-] xx [*] yz) [*] invDet;
          (xx [*] yy [-] xy [*] xy) [*] invDet].
  (** inv.cxx:70-96 *)
  Definition inv9_item (t : list T) : outcome (list T) :=
    let* xx := rd t 0 in let* xy := rd t 1 in let* xz := rd t 2 in
    let* yx := rd t 3 in let* yy := rd t 4 in let* yz := rd t 5 in
    let* zx := rd t 6 in let* zy := rd t 7 in let* zz := rd t 8 in
    let det := xx [*] (yy [*] zz [-] yz [*] zy) [-] xy [*] (yx [*] zz [-] yz [*] zx) [+] xz [*] (yx [*] zy [-] yy [*] zx) in
    if n_ltb (n_abs det) tiny then Throw RuntimeError
    else
      let invDet := n_of_Z 1 [/] det in
      Ok [(yy [*] zz [-] yz [*] zy) [*] invDet;
          (xz [*] zy [-] xy [*] zz) [*] invDet;
          (xy [*] yz [-] xz [*] yy) [*] invDet;
          (yz [*] zx [-] yx [*] zz) [*] invDet;
          (xx [*] zz [-] xz [*] zx) [*] invDet;
          (zx [*] xy [-] xx [*] zy) [*] invDet;
          (yx [*] zy [-] yy [*] zx) [*] invDet;
          (xy [*] zx [-] xx [*] zy) [*] invDet;
          (xx [*] yy [-] xy [*] yx) [*] invDet].
  (** inv.cxx:29-39, 69 *)
  Definition inv (s : Serie T) : outcome (Serie T) :=
    if negb (isValid s) then Ok serie_default
    else if negb (dimension s =? 3) || (negb (itemSize s =? 6) && negb (itemSize s =? 9)) then Ok serie_default
    else if itemSize s =? 6 then run (map_vv (fun t _ => lift (inv6_item t)) s)
    else run (map_vv (fun t _ => lift (inv9_item t)) s).

  (** norm.cxx:36-58: [createArray(1, s.count())] is one number equal to the count *)
  Definition norm2 (s : Serie T) : outcome (Serie T) :=
    if negb (isValid s) then Ok serie_default
    else if itemSize s =? 1 then clone s
    else
      let* data := foldO (fun data i =>
        let* v := value s i in
        let* n := foldO (fun n j => let* w := rd v j in Ok (n [+] w [*] w)) (iota (len v)) (n_of_Z 0) in
        wr data i n) (iota (count s)) (createArray 1 (n_of_Z (count s))) in
      serie_of 1 data 3.
  (** norm.cxx:31-34 *)
  Definition norm (s : Serie T) : outcome (Serie T) :=
    let* n2 := norm2 s in
    run (map_vv (fun a _ => lift (let* x := rd a 0 in Ok [n_sqrt x])) n2).

  (** transpose.cxx:32-54 *)
  Definition transpose4_item (t : list T) : outcome (list T) :=
    let* i0 := rd t 0 in let* i2 := rd t 2 in let* i1 := rd t 1 in let* i3 := rd t 3 in
    Ok [i0; i2; i1; i3].
  Definition transpose9_item (t : list T) : outcome (list T) :=
    let* i0 := rd t 0 in let* i3 := rd t 3 in let* i6 := rd t 6 in
    let* i1 := rd t 1 in let* i4 := rd t 4 in let* i7 := rd t 7 in
    let* i2 := rd t 2 in let* i5 := rd t 5 in let* i8 := rd t 8 in
    Ok [i0; i3; i6; i1; i4; i7; i2; i5; i8].
  Definition transpose (s : Serie T) : outcome (Serie T) :=
    if negb (itemSize s =? 4) && negb (itemSize s =? 9) then Throw InvalidArgument
    else if itemSize s =? 4 then run (map_vv (fun item _ => lift (transpose4_item item)) s)
    else run (map_vv (fun item _ => lift (transpose9_item item)) s).
End Algebra.
