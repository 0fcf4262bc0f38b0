(** * src/view: Vector and Matrix. *)
From Verif Require Import Base Num Serie Functional Mathf.
Open Scope Z_scope.
Open Scope num_scope.

Section Views.
  Context {T : Type} `{Num T}.

  (** ** Vector.cxx.  A [Vector] owns an [Array]; [toString] (119-127) is in ToString.v *)

  (** Vector.cxx:38-51 *)
  Definition v_at (v : list T) (i : Z) : outcome T := rd v i.
  Definition v_length (v : list T) : Z := u32 (len v).

  (** Vector.cxx:67-72: the initial value of [std::accumulate] is the [int] 0, so the accumulator is an [int] and every
      partial sum is converted from double to [int] *)
  Definition v_norm (v : list T) : outcome T :=
    let* acc := foldO (fun acc x => n_to_s32 (n_of_Z acc [+] x [*] x)) v 0 in
    Ok (n_sqrt (n_of_Z acc)).
  (** Vector.cxx:58-65 *)
  Definition v_normalize (v : list T) : outcome (list T) :=
    let* n := v_norm v in
    Ok (map (fun x => x [/] n) v).
  (** Vector.cxx:74-80 *)
  Definition v_scale (v : list T) (s : T) : list T := map (fun x => x [*] s) v.
  (** Vector.cxx:82-107: the functor counts its calls ([id++]); [s] is longer than needed or is read out of bounds *)
  Definition v_zip (op : T -> T -> T) (v s : list T) : outcome (list T) :=
    upd_each (len v) (fun id x => let* y := rd s id in Ok (op x y)) v.
  Definition v_mult (v s : list T) := v_zip n_mul v s.
  Definition v_add (v s : list T) := v_zip n_add v s.
  Definition v_sub (v s : list T) := v_zip n_sub v s.
  (** Vector.cxx:109-117 *)
  Definition v_dot (v s : list T) : outcome T :=
    foldO (fun d i => let* x := rd v i in let* y := rd s i in Ok (d [+] x [*] y)) (iota (len v)) (n_of_Z 0).

  (** ** Matrix.cxx *)

  (** [const Array &v_; uint m_].  [m_alive] is false once the viewed array is destroyed *)
  Record matrix : Type := { m_data : list T; m_alive : bool; m_m : Z }.

  (** Matrix.cxx:29-32 *)
  Definition index (i j m : Z) : Z := u32 (i * m + j).
  (** Matrix.cxx:34-42: [0.5 * i] and the rest of the expression are doubles, [2 * m - 1 - i] is a [uint] *)
  Definition indexS (i j m : Z) : outcome Z :=
    if j <? i
    then n_to_u32 (n_ratio 1 2 [*] n_of_Z j [*] n_of_Z (u32 (2 * m - 1 - j)) [+] n_of_Z i)
    else n_to_u32 (n_ratio 1 2 [*] n_of_Z i [*] n_of_Z (u32 (2 * m - 1 - i)) [+] n_of_Z j).

  (** reading through the reference *)
  Definition m_view (M : matrix) : outcome (list T) := if m_alive M then Ok (m_data M) else UB.
  (** Matrix.cxx:50-63 *)
  Definition m_length (M : matrix) : outcome Z := let* v := m_view M in Ok (u32 (len v)).
  Definition m_at (M : matrix) (i j : Z) : outcome T := let* v := m_view M in rd v (index i j (m_m M)).
  (** Matrix.cxx:65-73: [&&] does not read the components once [ok] is false *)
  Definition m_isSymmetric (M : matrix) : outcome bool :=
    foldO (fun (ok : bool) i =>
      foldO (fun (ok : bool) j =>
        if ok then let* x := m_at M i j in let* y := m_at M j i in Ok (n_eqb x y) else Ok false)
        (iota_from i (m_m M)) ok) (iota (m_m M)) true.
  (** Matrix.cxx:75-91; [k] and [a] are the state *)
  Definition m_array (M : matrix) : outcome (list T) :=
    let* sym := m_isSymmetric M in
    if sym then
      let* ka := foldO (fun ka i =>
        foldO (fun (ka : Z * list T) j =>
          let* x := m_at M i j in
          let* a := wr (snd ka) (fst ka) x in
          Ok (fst ka + 1, a)) (iota_from i (m_m M)) ka) (iota (m_m M)) (0, replicate (u32 (m_m M * u32 (m_m M + 1)) / 2) (n_of_Z 0)) in
      Ok (snd ka)
    else m_view M.
  (** Matrix.cxx:93-101 *)
  Definition m_trace (M : matrix) : outcome T :=
    foldO (fun t i => let* x := m_at M i i in Ok (t [+] x)) (iota (m_m M)) (n_of_Z 0).
  (** Matrix.cxx:103-115: the result views the local [v] *)
  Definition m_transpose (M : matrix) : outcome matrix :=
    let* v0 := m_view M in
    let* kv := foldO (fun kv j =>
      foldO (fun (kv : Z * list T) i =>
        let* x := m_at M i j in
        let* v := wr (snd kv) (fst kv) x in
        Ok (fst kv + 1, v)) (iota (m_m M)) kv) (iota (m_m M)) (0, replicate (len v0) (n_of_Z 0)) in
    Ok {| m_data := snd kv; m_alive := false; m_m := m_m M |}.
  (** Matrix.cxx:117-135 *)
  Definition m_multVec (M : matrix) (v : list T) : outcome (list T) :=
    if negb (v_length v =? m_m M) then Throw InvalidArgument
    else
      foldO (fun t i =>
        foldO (fun t j =>
          let* x := m_at M i j in
          let* y := rd v j in
          let* old := rd t i in
          wr t i (old [+] x [*] y)) (iota (m_m M)) t) (iota (m_m M)) (replicate (v_length v) (n_of_Z 0)).
  (** Matrix.cxx:137-158: the result views the local [t] *)
  Definition m_multMat (A B : matrix) : outcome matrix :=
    if negb (m_m B =? m_m A) then Throw InvalidArgument
    else
      let* l := m_length B in
      let* t := foldO (fun t i =>
        foldO (fun t j =>
          foldO (fun t k =>
            let* x := m_at A i k in
            let* y := m_at B k j in
            let* old := rd t (index i j (m_m A)) in
            wr t (index i j (m_m A)) (old [+] x [*] y)) (iota (m_m A)) t) (iota (m_m A)) t)
        (iota (m_m A)) (replicate l (n_of_Z 0)) in
      Ok {| m_data := t; m_alive := false; m_m := m_m A |}.

  (** Matrix.cxx:162-166: the argument is viewed and outlives the matrix in every use *)
  Definition squaredMatrix (v : list T) : outcome matrix :=
    let* m := n_to_u32 (n_sqrt (n_of_Z (len v))) in
    Ok {| m_data := v; m_alive := true; m_m := m |}.
  (** Matrix.cxx:168-180: [m] is a double; the loops [i < m] run up to the truncated [m], or one further when [m] is not a
      whole number.  The result views the local [w]. *)
  Definition symSquaredMatrix (v : list T) : outcome matrix :=
    let md := (n_sqrt (n_of_Z (u64 (8 * len v + 1))) [-] n_of_Z 1) [/] n_of_Z 2 in
    let* m := n_to_u32 md in
    let* mm := n_to_u32 (md [*] md) in
    let last := if n_ltb (n_of_Z m) md then m + 1 else m in
    let* w := foldO (fun w i =>
      foldO (fun w j =>
        let* p := indexS i j m in
        let* x := rd v p in
        wr w (index j i m) x) (iota last) w) (iota last) (createArray mm (n_of_Z 0)) in
    Ok {| m_data := w; m_alive := false; m_m := m |}.
End Views.
Arguments matrix T : clear implicits.
