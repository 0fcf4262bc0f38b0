(** * unitTest/eigen.cxx, pipe.cxx:79-101, compose.cxx (compose2) and decomposer.cxx, replayed on the model in binary64 (see UnitTests.v). *)
From Verif Require Import Base Num Serie Spec Functional Utils Mathf Stats Algebra Geo Dataframe Attributes Eigen.
From Verif Require Import F64 UnitTests.
From Flocq Require Import IEEE754.BinarySingleNaN.
From Coq Require Import String.
Open Scope Z_scope.

(** [sin], [cos] and [atan] are parameters of the model.  The tests need actual ones: partial sums of their series,
    good to the last few bits for |x| <= 1 (the rotation angles are at most pi/4). *)
Fixpoint series_sum (n : nat) (k : Z) (term x2 acc : F64) : F64 :=
  match n with
  | O => acc
  | Datatypes.S n => let t := f64_div (f64_mul (Bopp term) x2) #(k * (k + 1)) in series_sum n (k + 2) t x2 (f64_add acc t)
  end.
Definition t_sin (x : F64) : F64 := series_sum 12 2 x (f64_mul x x) x.
Definition t_cos (x : F64) : F64 := series_sum 12 1 #1 (f64_mul x x) #1.
Fixpoint atan_sum (n : nat) (k : Z) (power x2 acc : F64) : F64 :=
  match n with
  | O => acc
  | Datatypes.S n => let p := f64_mul (Bopp power) x2 in atan_sum n (k + 2) p x2 (f64_add acc (f64_div p #k))
  end.
Definition half (x : F64) : F64 := f64_div x (f64_add #1 (f64_sqrt (f64_add #1 (f64_mul x x)))).
Definition t_atan (x : F64) : F64 :=
  let small y := let z := half (half y) in f64_mul #4 (atan_sum 16 3 z (f64_mul z z) z) in
  let half_pi := f64_div (@n_pi F64 (f64_num libm0)) #2 in
  if Bltb #1 x then f64_sub half_pi (small (f64_div #1 x))
  else if Bltb x #(-1) then f64_sub (Bopp half_pi) (small (f64_div #1 x))
  else small x.
Definition test_libm : Libm := {| m_sin := t_sin; m_cos := t_cos; m_atan := t_atan |}.
#[local] Instance TestNum : Num F64 := f64_num test_libm.

(** ** eigen.cxx, basic *)
Definition tensors := S 6 [2; 4; 6; 3; 6; 9; 1; 2; 3; 4; 5; 6; 9; 8; 7; 6; 5; 4].
Definition vals : list F64 := [dec 163328 4; dec (-658031) 6; dec (-167482) 5; dec 113448 4; dec 170914 6; dec (-515728) 6; dec 201911 4; dec (-43142) 6; dec (-114795) 5].
Definition vecs : list F64 :=
  [dec 449309 6; dec 47523 5; dec 75649 5; dec 194453 6; dec 774452 6; dec (-602007) 6; dec 871957 6; dec (-417589) 6; dec (-255559) 6;
   dec 327985 6; dec 591009 6; dec 736977 6; dec (-592113) 6; dec 736484 6; dec (-327099) 6; dec 73609 5; dec 32909 5; dec (-5915) 4;
   dec 688783 6; dec 553441 6; dec 468275 6; dec 15941 5; dec (-745736) 6; dec 64689 5; dec (-707225) 6; dec 370919 6; dec 601874 6].
Example test_eigen :
  arrayEq (dec 1 4) (data (on tensors eigenValues)) vals && arrayEq (dec 1 4) (data (on tensors eigenVectors)) vecs &&
  match on tensors eigenSystem with
  | Ok (values, vectors) => arrayEq (dec 1 4) (data (Ok values)) vals && arrayEq (dec 1 4) (data (Ok vectors)) vecs
  | _ => false
  end = true.
Proof. vm_compute; reflexivity. Qed.

(** ** pipe.cxx:79-101 *)
Example test_pipe_eigen :
  sameSerie_tol (dec 1 4) (on (on (S 6 [1; 2; 3; 4; 5; 6]) eigenSystem) (fun t => Ok (fst t))) (serie_of 3 [dec 113448 4; dec 170914 6; dec (-515728) 6] 3) = true.
Proof. vm_compute; reflexivity. Qed.

(** ** compose.cxx, compose2 (prints only): two of the four tensors are compressive *)
Example test_compose_eigen :
  match on (S 6 [1; 0; 0; 1; 0; 1; 2; 1; 0; 2; 0; 2; -1; 0; 0; -1; 0; -1; -2; -1; 0; -2; 0; -2]) (fun s =>
    runs (compose [fun s => lift (normalize s); fun s => filter_v (fun v _ => ret (lt0 (item v 0))) s; fun s => lift (eigenValues s)] s)) with
  | Ok s => (count s =? 2) && (itemSize s =? 3)
  | _ => false
  end = true.
Proof. vm_compute; reflexivity. Qed.

(** ** filter.cxx:106-176: the criticality index of the filtered stresses *)
Fixpoint exp_sum (n : nat) (k : Z) (term x acc : F64) : F64 :=
  match n with O => acc | Datatypes.S n => let t := f64_div (f64_mul term x) #k in exp_sum n (k + 1) t x (f64_add acc t) end.
Definition t_exp (x : F64) : F64 := exp_sum 16 1 #1 x #1.
Definition criticality (stress positions : Serie F64) : outcome (Serie F64) :=
  let cohesion := dec 1 1 in
  let friction_angle := f64_div (f64_mul #30 n_pi) #180 in
  foldO (fun result i =>
    let* values := get_array stress i in
    let* pos := get_array positions i in
    let deviatoric := f64_sub (item values 0) (item values 2) in
    let critical_stress := f64_div (f64_mul (f64_mul #2 cohesion) (n_cos friction_angle)) (f64_sub #1 (n_sin friction_angle)) in
    let depth_factor := t_exp (f64_div (Bopp (Bopp (item pos 2))) #1000) in
    set_double result i (f64_mul (f64_div deviatoric critical_stress) depth_factor)) (iota (count stress)) (serie_n 1 (count stress) 3).
Example test_criticality :
  sameSerie_tol (dec 1 4)
    (on stress3 (fun s => on positions3 (fun p => on (runs (filterAll (fun vs => ret (lt0 (item (arg vs 0) 0) && lt0 (item (arg vs 1) 2))) [s; p])) (fun fs =>
       match fs with [s'; p'] => criticality s' p' | _ => Throw InvalidArgument end))))
    (serie_of 1 [dec (-224115) 4] 3) = true.
Proof. vm_compute; reflexivity. Qed.

(** ** Managers *)
Fixpoint frame_from (a : Z) (d : Dataframe F64) (l : list (string * outcome (Serie F64))) : outcome (Dataframe F64) :=
  match l with [] => Ok d | (n, o) :: l => let* s := o in frame_from (a + 1) (df_add a d n s) l end.
Definition frame := frame_from 1 (df_new 0).
Definition names_of (o : outcome (Dataframe F64)) (ds : list (decomposer F64 unit)) (dim k : Z) : outcome (list string) := let* d := o in runs (manager_names d ds dim k).
Definition contains_all (o : outcome (Dataframe F64)) (ds : list (decomposer F64 unit)) (dim k : Z) (l : list string) : bool :=
  match o with Ok d => forallb (fun n => match runs (manager_contains d ds dim k n) with Ok b => b | _ => false end) l | _ => false end.
Definition how_many (o : outcome (list string)) (n : Z) : bool := match o with Ok l => len l =? n | _ => false end.
Definition serie_named (o : outcome (Dataframe F64)) (ds : list (decomposer F64 unit)) (k : Z) (n : string) : outcome (Serie F64) := let* d := o in runs (manager_serie d ds k n).
Open Scope string_scope.

(** eigen.cxx, attributes *)
Definition eig : list (decomposer F64 unit) := [EigenValues; EigenVectors].
Definition frameS := frame [("S", tensors)].
Example test_eigen_names :
  how_many (names_of frameS eig 3 1) 3 && contains_all frameS eig 3 1 ["S1"; "S2"; "S3"] &&
  how_many (names_of frameS eig 3 3) 3 && contains_all frameS eig 3 3 ["S1"; "S2"; "S3"] &&
  how_many (names_of frameS eig 3 6) 1 && contains_all frameS eig 3 6 ["S"] = true.
Proof. vm_compute; reflexivity. Qed.

(** decomposer.cxx, namesExist *)
Definition frame4 := frame [("a", S 1 [1; 2]); ("U", S 3 [2; 4; 6; 3; 6; 9]); ("S", S 6 [2; 4; 6; 3; 6; 9; 1; 2; 3; 4; 5; 6]);
  ("E", S 9 [2; 4; 6; 3; 6; 9; 1; 2; 3; 4; 5; 6; 7; 8; 9; 1; 2; 3])].
Definition two : list (decomposer F64 unit) := [Components; EigenValues].
Example test_namesExist :
  how_many (names_of frame4 two 3 1) 22 &&
  contains_all frame4 two 3 1 ["a"; "Exx"; "Exy"; "Exz"; "Eyx"; "Eyy"; "Eyz"; "Ezx"; "Ezy"; "Ezz"; "S1"; "S2"; "S3"; "Sxx"; "Sxy"; "Sxz"; "Syy"; "Syz"; "Szz"; "Ux"; "Uy"; "Uz"] &&
  how_many (names_of frame4 (two ++ [EigenVectors])%list 3 3) 4 && contains_all frame4 (two ++ [EigenVectors])%list 3 3 ["U"; "S1"; "S2"; "S3"] = true.
Proof. vm_compute; reflexivity. Qed.

(** decomposer.cxx, coordinates, normals, area; the decomposers' names are the defaults of their constructors *)
Definition triangle := frame [("positions", S 3 [0; 0; 0; 1; 0; 0; 1; 1; 0]); ("indices", S 3 [0; 1; 2])].
Definition coords : list (decomposer F64 unit) := [Coordinates ["x"; "y"; "z"]; Normals "normals"].
Example test_coordinates :
  how_many (names_of triangle coords 3 1) 3 && serieEq (serie_named triangle coords 1 "x") (nums [0; 1; 1]) && serieEq (serie_named triangle coords 1 "y") (nums [0; 0; 1]) &&
  serieEq (serie_named triangle coords 1 "z") (nums [0; 0; 0]) &&
  how_many (names_of triangle [Normals "normals"] 3 3) 1 && serieEq (serie_named triangle [Normals "normals"] 3 "normals") (nums [0; 0; 1]) &&
  how_many (names_of triangle [Area "area"] 1 1) 1 = true.
Proof. vm_compute; reflexivity. Qed.

(** decomposer.cxx, area and userDefined *)
Example test_area : match serie_named triangle [Area "area"] 3 "area" with Ok s => match s_ s with x :: _ => near (dec 1 9) x (dec 5 1) | [] => false end | _ => false end = true.
Proof. vm_compute; reflexivity. Qed.
Example test_userDefined :
  serieEq (serie_named (frame [("S", S 6 [2; 4; 6; 3; 6; 9; 1; 2; 3; 4; 5; 6; 9; 8; 7; 6; 5; 4])])
    [UserDefined 1 "xx" (fun d => d_serie Components d 1 "Sxx")] 1 "xx") (nums [2; 1; 9]) = true.
Proof. vm_compute; reflexivity. Qed.
