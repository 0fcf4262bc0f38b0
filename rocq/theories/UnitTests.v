(** * The unit tests of the library (directory unitTest of the repository), replayed on the model in binary64.

    The code cannot be run here; this file checks the reading of the code against the answers its authors expect.
    Every assertion of a test is one conjunct of the boolean below it, with the tolerance of the test.
    Decimal constants are quotients of two exactly represented integers, hence the nearest doubles. *)
From Verif Require Import Base Num Serie Spec Functional Utils Mathf Stats Algebra Geo Views Dataframe Attributes Eigen.
From Verif Require Import F64 Props_Functional OrderFacts.
From Flocq Require Import IEEE754.BinarySingleNaN.
From Coq Require Import String.
Open Scope Z_scope.
#[local] Existing Instance F64N.

(** ** unitTest/assertions.h *)
Definition dec (n k : Z) : F64 := f64_div #n #(10 ^ k).
Definition tol7 : F64 := dec 1 7.
(** assertions.h:66-73: passes unless [fabs(a - b) > tol] *)
Definition near (tol a b : F64) : bool := negb (Bltb tol (Babs (f64_sub a b))).
Fixpoint near_all (tol : F64) (a b : list F64) : bool :=
  match a, b with
  | [], [] => true
  | x :: a, y :: b => near tol x y && near_all tol a b
  | _, _ => false
  end.
(** assertions.h:75-92 *)
Definition arrayEq (tol : F64) (o : outcome (list F64)) (b : list F64) : bool :=
  match o with Ok a => near_all tol a b | _ => false end.
Definition data (o : outcome (Serie F64)) : outcome (list F64) := let* s := o in Ok (asArray s).
Definition serieEq (o : outcome (Serie F64)) (b : list F64) : bool := arrayEq tol7 (data o) b.
(** assertions.h:99-106 *)
Definition sameSerie_tol (tol : F64) (o p : outcome (Serie F64)) : bool :=
  match o, p with
  | Ok s, Ok t => (itemSize s =? itemSize t) && (dimension s =? dimension t) && (count s =? count t) && (size s =? size t) && near_all tol (asArray s) (asArray t)
  | _, _ => false
  end.
Definition sameSerie := sameSerie_tol tol7.
(** assertions.h:108-122 *)
Definition shouldThrow {A} (o : outcome A) : bool := match o with Throw InvalidArgument => true | _ => false end.
Definition shouldNotThrow {A} (o : outcome A) : bool := match o with Ok _ => true | _ => false end.

Definition nums (l : list Z) : list F64 := map f64_of_Z l.
Definition S (k : Z) (l : list Z) : outcome (Serie F64) := serie_of k (nums l) 3.
Definition item (v : list F64) (i : nat) : F64 := nth i v #0.
Definition lt0 (x : F64) : bool := Bltb x #0.
Definition on {A B} (o : outcome A) (f : A -> outcome B) : outcome B := obind o f.
Definition runs {A} (m : M unit A) : outcome A := run m.
Definition twice (v : F64) (_ : Z) : M unit F64 := ret (f64_mul v #2).
Definition even (v : F64) (_ : Z) : M unit bool := let! i := lift (n_to_u32 (n_trunc v)) in ret (Z.even i).
Definition above (x v : F64) (_ : Z) : M unit bool := ret (Bltb x v).
Definition norm_of (v : list F64) : F64 := n_sqrt (fold_left (fun a x => f64_add a (f64_mul x x)) v #0).

(** ** map.cxx *)
Definition cube (v : F64) (_ : Z) : M unit (list F64) := ret [v; f64_mul v v; f64_mul (f64_mul v v) v].
Example test_map :
  serieEq (on (S 1 [1; 2; 3; 4; 5]) (fun s => runs (map_ss twice s))) (nums [2; 4; 6; 8; 10]) &&
  arrayEq (dec 1 4) (data (on (S 2 [1; 2; 3; 4; 5; 6]) (fun s => runs (map_vs (fun v _ => ret (n_sqrt (f64_add (f64_mul (item v 0) (item v 0)) (f64_mul (item v 1) (item v 1))))) s))))
    [dec 2236 3; #5; dec 781025 5] &&
  serieEq (on (S 1 [1; 2; 3; 4]) (fun s => runs (map_sv cube s))) (nums [1; 1; 1; 2; 4; 8; 3; 9; 27; 4; 16; 64]) &&
  arrayEq (dec 1 4) (data (on (S 3 [1; 2; 3; 4; 5; 6]) (fun s => runs (map_vs (fun v _ => ret (norm_of v)) s)))) [dec 374166 5; dec 877496 5] &&
  serieEq (on (S 3 [1; 2; 3; 4; 5; 6]) (fun s => runs (map_vv (fun v _ => ret (flat_map (fun x => [x; f64_mul x #2]) v)) s))) (nums [1; 2; 2; 4; 3; 6; 4; 8; 5; 10; 6; 12]) = true.
Proof. vm_compute; reflexivity. Qed.
(** doPipe, and the last two blocks, whose results are printed only *)
Example test_map_pipe :
  serieEq (on (S 1 [1; 2; 3]) (fun s1 => on (S 2 [4; 5; 6; 7; 8; 9]) (fun s2 => on (zip_series [s1; s2]) (fun z => runs (pipe z [map_vv (fun v _ => ret (map (fun x => f64_mul x #2) v))])))))
    (nums [2; 8; 10; 4; 12; 14; 6; 16; 18]) &&
  serieEq (on (S 1 [1; 2; 3]) (fun s => runs (make_pipe [map_ss twice; map_ss (fun v _ => ret (f64_add v #1))] s))) (nums [3; 5; 7]) &&
  sameSerie (on (S 1 [5; 2]) (fun s1 => on (S 2 [1; 2; 3; 4]) (fun s2 => on (S 3 [1; 2; 3; 4; 5; 6]) (fun s3 =>
    runs (map_n_v (fun vs _ => match vs with [_; v1; v2] => ret (v1 ++ v2) | _ => throwM InvalidArgument end) [s1; s2; s3])))))
    (S 5 [1; 2; 1; 2; 3; 3; 4; 4; 5; 6]) = true.
Proof. vm_compute; reflexivity. Qed.

(** ** apply.cxx: [apply] is another name of [map] *)
Definition roots (v : list F64) (_ : Z) : M unit (list F64) := ret (map n_sqrt v).
Example test_apply :
  serieEq (on (S 1 [1; 2; 3; 4]) (fun s => runs (map_vv roots s))) [#1; n_sqrt #2; n_sqrt #3; #2] = true.
Proof. vm_compute; reflexivity. Qed.

(** ** filter.cxx *)
Example test_filter :
  serieEq (on (S 1 [1; 2; 3; 4; 5]) (fun s => runs (filter_s even s))) (nums [2; 4]) &&
  serieEq (on (S 1 [1; 2; 3; 4; 5]) (fun s => runs (filter_s (above #3) s))) (nums [4; 5]) &&
  serieEq (on (S 3 [1; 2; 3; 4; 5; 6; 7; 8; 9]) (fun s => runs (filter_v (fun v _ => ret (Bltb #10 (norm_of v))) s))) (nums [7; 8; 9]) &&
  serieEq (on (S 3 [1; 2; 3; 4; 5; 6; 7; 8; 9]) (fun s => runs (filter_v (fun v _ => ret (Bleb #4 (item v 0))) s))) (nums [4; 5; 6; 7; 8; 9]) &&
  serieEq (on (S 3 [10; 0; 0; 10; 11; 12; 13; 14; 15]) (fun s => runs (filter_v (fun v _ => ret (Bltb #10 (norm_of v))) s))) (nums [10; 11; 12; 13; 14; 15]) = true.
Proof. vm_compute; reflexivity. Qed.
Definition stress3 := S 6 [-2; 4; 6; -3; 6; -9; 1; 2; 3; 4; 5; 6; 9; 8; 7; 6; 5; 4].
Definition positions3 := S 3 [10; 20; -30; 1; 0; 0; 2; 0; 0].
Definition arg (vs : list (list F64)) (i : nat) : list F64 := nth i vs [].
Definition nth_serie (o : outcome (list (Serie F64))) (i : nat) : outcome (Serie F64) := let* l := o in rd l (Z.of_nat i).
Definition three_filtered : outcome (list (Serie F64)) :=
  on stress3 (fun s => on positions3 (fun p => on (S 1 [1; 2; 2]) (fun m =>
    runs (filterAll (fun vs => ret (lt0 (item (arg vs 0) 0) && lt0 (item (arg vs 1) 2) && Beqb (item (arg vs 2) 0) #1)) [s; p; m])))).
Example test_filterAll :
  sameSerie (nth_serie three_filtered 0) (S 6 [-2; 4; 6; -3; 6; -9]) &&
  sameSerie (nth_serie three_filtered 1) (S 3 [10; 20; -30]) &&
  sameSerie (nth_serie three_filtered 2) (S 1 [1]) = true.
Proof. vm_compute; reflexivity. Qed.

(** ** reduce.cxx *)
Example test_reduce :
  serieEq (on (S 3 [1; 2; 3; 4; 5; 6]) (fun s => runs (reduce_v (fun p c _ => ret [f64_add (item p 0) (item c 0); f64_add (item p 1) (item c 1)]) s (nums [10; 20])))) (nums [15; 27]) &&
  serieEq (on (S 3 [1; 2; 3; 4; 5; 6]) (fun s => runs (reduce_v (fun p c _ => ret [f64_add (item p 0) (item c 0)]) s (nums [0])))) (nums [5]) &&
  arrayEq tol7 (on (on (S 1 [1; 2; 3; 4; 5]) (fun s => runs (reduce_s (fun a v _ => ret (f64_add a v)) s #0))) (fun x => Ok [x])) (nums [15]) = true.
Proof. vm_compute; reflexivity. Qed.

(** ** find.cxx: what the comments announce *)
Definition scalars := S 1 [-1; 2; 3; -4; 5].
Definition nine := S 3 [1; 2; 3; 4; 5; 6; 7; 8; 9].
Example test_find :
  match on scalars (fun s => runs (find_s (above #3) s)) with Ok r => fr_found r && (fr_index r =? 4) && Beqb (fr_value r) #5 | _ => false end &&
  match on nine (fun s => runs (find_v (fun v _ => ret (Bltb #3 (item v 0))) s)) with Ok r => fr_found r && (fr_index r =? 1) && near_all tol7 (fr_value r) (nums [4; 5; 6]) | _ => false end &&
  serieEq (on scalars (fun s => runs (findAll_s (above #3) s))) (nums [5]) &&
  serieEq (on nine (fun s => runs (findAll_v (fun v _ => ret (Bltb #3 (item v 0))) s))) (nums [4; 5; 6; 7; 8; 9]) &&
  match on scalars (fun s => runs (find_s (above #0) s)) with Ok r => fr_found r && (fr_index r =? 1) | _ => false end &&
  serieEq (on scalars (fun s => runs (findAll_s (above #0) s))) (nums [2; 3; 5]) = true.
Proof. vm_compute; reflexivity. Qed.

(** ** pipe.cxx *)
Example test_pipe :
  match on (S 1 [1; 2; 3; 4; 5]) (fun s => runs (pipe s [map_ss twice; filter_s (above #4)])), S 1 [6; 8; 10] with Ok r, Ok sol => equals sol r | _, _ => false end &&
  match on (S 1 [1; 2; 3; 4; 5]) (fun s => runs (make_pipe [map_ss twice; filter_s (above #4)] s)), S 1 [6; 8; 10] with Ok r, Ok sol => equals sol r | _, _ => false end &&
  sameSerie (on (S 1 [1; 2; 3]) (fun s1 => on (S 2 [1; 2; 3; 4; 5; 6]) (fun s2 => zip_series [s1; s2]))) (S 3 [1; 1; 2; 2; 3; 4; 3; 5; 6]) &&
  sameSerie (on (S 6 [1; 2; 3; 4; 5; 6; 1; 2; 3; 4; 5; 6; 1; 2; 3; 4; 5; 6; 1; 2; 3; 4; 5; 6]) (fun s => on (S 3 [0; 0; 0; 1; 0; 0; 2; 0; 0; 3; 0; 0]) (fun p => zip_series [s; p])))
    (S 9 [1; 2; 3; 4; 5; 6; 0; 0; 0; 1; 2; 3; 4; 5; 6; 1; 0; 0; 1; 2; 3; 4; 5; 6; 2; 0; 0; 1; 2; 3; 4; 5; 6; 3; 0; 0]) = true.
Proof. vm_compute; reflexivity. Qed.
(** pipe.cxx:71-73: the pipeline for scalars applied to vectors only prints; the scalar callback on a vector Serie reads the first [count] numbers *)
Example test_pipe_vector :
  match on (S 2 [5; 6; 7; 8]) (fun s => runs (make_pipe [map_ss twice; filter_s (above #4)] s)) with Ok s => near_all tol7 (asArray s) (nums [10; 12]) | _ => false end = true.
Proof. vm_compute; reflexivity. Qed.

(** ** compose.cxx, compose1: f(g(h(3))) *)
Example test_compose :
  match runs (compose [fun x => ret (f64_mul x #2); fun x => ret (f64_add x #1); fun x => ret (f64_mul x x)] #3) with Ok r => near tol7 r #20 | _ => false end = true.
Proof. vm_compute; reflexivity. Qed.

(** ** addDotNegate.cxx *)
Definition sa := S 2 [1; 2; 3; 4].
Definition sb := S 2 [4; 3; 2; 1].
Definition sc := S 2 [2; 2; 1; 1].
Definition sd := S 3 [2; 2; 1; 1; 0; 0].
Definition se := S 2 [2; 2; 1; 1; 0; 0].
Definition series (l : list (outcome (Serie F64))) : outcome (list (Serie F64)) := mapO (fun o => o) l.
Example test_addDotNegate :
  serieEq (on (series [sa; sb; sc]) add_list) (nums [7; 7; 6; 6]) &&
  serieEq (on (series [sa; sb; sc]) add_variadic) (nums [7; 7; 6; 6]) &&
  serieEq (on sa (fun a => on sb (dot a))) (nums [10; 10]) &&
  serieEq (on sa negate) (nums [-1; -2; -3; -4]) &&
  serieEq (on (series [sa; on sa negate]) add_list) (nums [0; 0; 0; 0]) = true.
Proof. vm_compute; reflexivity. Qed.

(** ** check.cxx *)
Example test_check :
  serieEq (on (S 1 [1; -2; 3]) (fun s => runs (check_s s (fun v _ => ret (lt0 v))))) (nums [0; 1; 0]) &&
  serieEq (on (S 3 [1; 2; 3; -4; 5; 6]) (fun s => runs (check_v s (fun v _ => ret (lt0 (item v 0)))))) (nums [0; 1]) = true.
Proof. vm_compute; reflexivity. Qed.

(** ** concat.cxx, cross.cxx *)
Example test_concat_cross :
  serieEq (on (series [S 2 [1; 2; 3; 4; 5; 6]; S 2 [4; 5; 6; 7; 8; 9]; S 2 [10; 11; 12; 13; 10; 10]]) concat_series)
    (nums [1; 2; 3; 4; 5; 6; 4; 5; 6; 7; 8; 9; 10; 11; 12; 13; 10; 10]) &&
  serieEq (on (S 3 [2; 3; 4; 5; 6; 7]) (fun a => on (S 3 [5; 6; 7; -1; 4; 2]) (cross a))) (nums [-3; 6; -3; -16; -17; 26]) = true.
Proof. vm_compute; reflexivity. Qed.

(** ** div.cxx *)
Definition divided (d a : outcome (Serie F64)) : outcome (Serie F64) := on d (fun d => on a (div_serie d)).
Example test_div :
  sameSerie (divided (S 1 [2; 3]) (S 3 [2; 4; 6; 3; 6; 9])) (S 3 [1; 2; 3; 1; 2; 3]) &&
  shouldThrow (divided (S 2 [1; 3; 2; 9]) (S 3 [2; 4; 6; 3; 6; 9])) &&
  shouldThrow (divided (S 3 [2; 4; 6; 3; 6; 9]) (S 1 [1; 3; 2])) = true.
Proof. vm_compute; reflexivity. Qed.

(** ** equals.cxx: what the comments announce *)
Definition with_ulp := serie_of 1 [dec 10000001 7; #2; #3] 3.
Example test_equals :
  match S 1 [1; 2; 3], with_ulp, S 1 [1; 4; 3] with
  | Ok s, Ok t, Ok u =>
      equals s s && match approximatelyEquals s t (dec 1 6) with Ok b => b | _ => false end && equalsAll s [s; s] &&
      serieEq (equalityMask s u) (nums [1; 0; 1])
  | _, _, _ => false
  end = true.
Proof. vm_compute; reflexivity. Qed.
Example test_approximate_mask :
  match S 1 [1; 2; 3], serie_of 1 [dec 10000001 7; #4; #3] 3 with Ok s, Ok u => serieEq (approximateEqualityMask s u (dec 1 6)) (nums [1; 0; 1]) | _, _ => false end = true.
Proof. vm_compute; reflexivity. Qed.

(** ** except.cxx *)
Example test_except :
  shouldThrow (on (series [sa; S 2 [4; 3; 2; 1; 3; 3]]) add_list) && shouldThrow (on (series [sa; S 3 [4; 3; 2; 1; 3; 3]]) add_list) &&
  match sa, S 2 [4; 3; 2; 1; 3; 3] with Ok a, Ok b => let d := df_add 2 (df_add 1 (df_new 0) "pos" a) "idx" b in df_contains_name d "pos" && df_contains_name d "idx" | _, _ => false end = true.
Proof. vm_compute; reflexivity. Qed.

(** ** inv.cxx: the second test has the tolerance 10^5 and accepts anything; 10^-5 is used here *)
Example test_inv :
  serieEq (on (S 6 [1; 2; 3; 4; 5; 6]) inv) (nums [1; -3; 2; 3; -1; 0]) &&
  arrayEq (dec 1 5) (data (on (S 9 [2; 3; 1; 6; 5; 4; 7; 9; 8]) inv))
    [dec (-121212) 6; dec 454545 6; dec (-212121) 6; dec 606061 6; dec (-272727) 6; dec (-909091) 7; dec (-575758) 6; dec (-909091) 7; dec 242424 6] = true.
Proof. vm_compute; reflexivity. Qed.

(** ** merge.cxx *)
Example test_merge :
  match S 2 [1; 2; 3; 4], S 2 [3; 4; 5; 6], S 2 [7; 8; 9; 10] with
  | Ok s1, Ok s2, Ok s3 =>
      sameSerie (merge2 s1 s2 true) (S 2 [1; 2; 3; 4; 3; 4; 5; 6]) &&
      sameSerie (mergeN true [s1; s2; s3]) (S 2 [1; 2; 3; 4; 3; 4; 5; 6; 7; 8; 9; 10])
  | _, _, _ => false
  end = true.
Proof. vm_compute; reflexivity. Qed.
(** merge.cxx:38: the test expects [merge(s1, s2, false)] to be {1,2, 3,4, 3,4, 5,6}: interleaved items
    are {1,2}, {3,4} (the first of s2), {3,4} (the second of s1), {5,6} *)
Example test_merge_interleaved :
  match S 2 [1; 2; 3; 4], S 2 [3; 4; 5; 6] with Ok s1, Ok s2 => sameSerie (merge2 s1 s2 false) (S 2 [1; 2; 3; 4; 3; 4; 5; 6]) | _, _ => false end = true.
Proof. vm_compute; reflexivity. Qed.

(** ** minMax.cxx, normalize.cxx *)
Example test_minMax :
  match on (S 1 [1; 5; 2; 4; 3]) minMax, on (S 3 [1; 2; 3; 4; 1; 6; 2; 5; 0]) minMax with
  | Ok (mn1, mx1), Ok (mn3, mx3) => near_all tol7 mn1 (nums [1]) && near_all tol7 mx1 (nums [5]) && near_all tol7 mn3 (nums [1; 1; 0]) && near_all tol7 mx3 (nums [4; 5; 6])
  | _, _ => false
  end &&
  serieEq (on (S 1 [1; 2; 3; 4; 5]) normalize) [#0; dec 25 2; dec 5 1; dec 75 2; #1] &&
  arrayEq (dec 1 6) (data (on nine normalize))
    [dec 267261 6; dec 534522 6; dec 801784 6; dec 455842 6; dec 569803 6; dec 683763 6; dec 502571 6; dec 574367 6; dec 646162 6] = true.
Proof. vm_compute; reflexivity. Qed.

(** ** partition.cxx, partition_n.cxx *)
Example test_partition :
  match on (S 6 [2; 4; 6; 3; 6; 9; -1; 2; 3; 4; 5; 6; -9; 8; 7; 6; 5; 4]) (fun s => runs (partition_v (fun v _ => ret (lt0 (item v 0))) s)) with
  | Ok (compressive, tensile) => sameSerie (Ok compressive) (S 6 [-1; 2; 3; 4; 5; 6; -9; 8; 7; 6; 5; 4]) && sameSerie (Ok tensile) (S 6 [2; 4; 6; 3; 6; 9])
  | _ => false
  end = true.
Proof. vm_compute; reflexivity. Qed.
Definition ps1 := S 1 [1; 2; 3; 4].
Definition ps2 := S 3 [1; 2; 3; 4; 5; 6; 7; 8; 9; 10; 11; 12].
Definition ps3 := S 1 [1; 2; 3; 4; 5; 6; 7; 8; 9; 10].
Definition arrays (o : outcome (list (Serie F64))) (l : list (list Z)) : bool :=
  match o with Ok ps => (len ps =? len l) && forallb (fun p => near_all tol7 (asArray (fst p)) (nums (snd p))) (combine ps l) | _ => false end.
Example test_partition_n :
  arrays (on ps1 (partition_n 2)) [[1; 2]; [3; 4]] && arrays (on ps3 (partition_n 2)) [[1; 2; 3; 4; 5]; [6; 7; 8; 9; 10]] &&
  match on (series [ps1; ps2]) (partition_n_multi 2) with
  | Ok [p; q] => arrays (Ok p) [[1; 2]; [3; 4]] && arrays (Ok q) [[1; 2; 3; 4; 5; 6]; [7; 8; 9; 10; 11; 12]]
  | _ => false
  end &&
  arrays (on ps3 (partition_n 3)) [[1; 2; 3; 4]; [5; 6; 7]; [8; 9; 10]] = true.
Proof. vm_compute; reflexivity. Qed.

(** ** reject.cxx (prints only) *)
Example test_reject :
  serieEq (on (S 1 [1; 2; 3; 4; 5]) (fun s => runs (reject_s even s))) (nums [1; 3; 5]) &&
  arrays (on (series [S 6 [1; 2; 3; 4; 5; 6; 6; 5; 4; 3; 2; 1]; S 3 [1; 2; 3; 3; 2; 1]]) (fun ss => runs (rejectAll (fun vs => ret (lt0 (item (arg vs 0) 0) && Bltb #0 (item (arg vs 1) 2))) ss)))
    [[1; 2; 3; 4; 5; 6; 6; 5; 4; 3; 2; 1]; [1; 2; 3; 3; 2; 1]] &&
  serieEq (on (S 1 [1; 2; 3; 4; 5]) (fun s => runs (reject_s (fun v _ => ret (lt0 v)) s))) (nums [1; 2; 3; 4; 5]) = true.
Proof. vm_compute; reflexivity. Qed.

(** ** forEach.cxx *)
Definition nothing {A} (_ : A) (_ : Z) : M unit unit := ret tt.
Definition fs1 := S 1 [10; 20].
Definition fs2 := S 2 [1; 2; 3; 4].
Definition fs3 := S 3 [1; 2; 3; 4; 5; 6].
(** the callback over three Series checks its items against [get<Array>(i)]; [false] is kept once a check fails *)
Definition same_items (ss : list (Serie F64)) (vs : list (list F64)) (i : Z) : M (bool * Z) unit := fun st =>
  (Ok tt, (fst st && match mapO (fun s => get_array s i) ss with Ok ws => forallb (fun p => near_all tol7 (fst p) (snd p)) (combine vs ws) && (len vs =? len ws) | _ => false end, snd st + 1)).
Example test_forEach :
  shouldNotThrow (on (S 1 [1; 2; 3]) (fun s => runs (forEach_s nothing s))) && shouldNotThrow (on fs3 (fun s => runs (forEach_v nothing s))) &&
  shouldNotThrow (on fs3 (fun s => runs (forEach_auto nothing nothing s))) && shouldNotThrow (on (S 1 [1; 2; 3]) (fun s => runs (forEach_auto nothing nothing s))) &&
  match on fs1 (fun s1 => on fs2 (fun s2 => on fs3 (fun s3 => Ok [s1; s2; s3]))) with
  | Ok ss => match forEach_n (same_items ss) ss (true, 0) with (Ok _, (ok, n)) => ok && (n =? 2) | _ => false end
  | _ => false
  end = true.
Proof. vm_compute; reflexivity. Qed.

(** ** scalar.cxx *)
Example test_scalar :
  serieEq (on ps1 (fun s => runs (map_ss (fun _ _ => ret #(-1)) s))) (nums [-1; -1; -1; -1]) &&
  arrayEq tol7 (on (on ps1 (fun s => runs (reduce_s (fun p c _ => ret (f64_add p c)) s #10))) (fun x => Ok [x])) (nums [20]) &&
  serieEq (on ps1 (fun s => runs (filter_s (fun v _ => ret (Bleb v (dec 32 1))) s))) (nums [1; 2; 3]) &&
  match S 1 [1; 3; 2; 9] with Ok a => arrayEq tol7 (mapO (scalar a) (iota (count a))) (nums [1; 3; 2; 9]) | _ => false end &&
  shouldThrow (on (S 2 [1; 3; 2; 9]) (fun b => runs (forEach_s nothing b))) && shouldNotThrow (on (S 2 [1; 3; 2; 9]) (fun b => runs (forEach_v nothing b))) = true.
Proof. vm_compute; reflexivity. Qed.

(** ** serie.cxx *)
Example test_serie :
  match ps1 with
  | Ok s => let d := df_add 1 (df_new 0) "toto" s in String.eqb (nameOfSerie d 1) "toto" && String.eqb (nameOfSerie d 2) ""
  | _ => false
  end &&
  match S 1 [1; 2; 3; 4; 5], nine with
  | Ok s1, Ok s2 =>
      arrayEq tol7 (on (get_double s1 0) (fun x => on (scalar s1 0) (fun y => Ok [x; y]))) (nums [1; 1]) &&
      serieEq (on (set_double s1 0 #42) (fun s => setScalar s 0 #42)) (nums [42; 2; 3; 4; 5]) &&
      arrayEq tol7 (on (get_array s2 0) (fun x => on (value s2 0) (fun y => Ok (x ++ y)))) (nums [1; 2; 3; 1; 2; 3]) &&
      serieEq (on (set_array s2 0 (nums [10; 11; 12])) (fun s => setValue s 0 (nums [10; 11; 12]))) (nums [10; 11; 12; 4; 5; 6; 7; 8; 9]) &&
      serieEq (runs (map_vv (fun v _ => ret (map (fun x => f64_mul x #2) v)) s2)) (nums [2; 4; 6; 8; 10; 12; 14; 16; 18])
  | _, _ => false
  end = true.
Proof. vm_compute; reflexivity. Qed.

(** ** sort.cxx; small arrays are sorted by (stable) insertion in the usual implementations of [std::sort] *)
Definition stable_sorter : Sorter := fun A lt l => isort lt (rev l).
Lemma stable_sorter_conforms : conforms stable_sorter.
Proof.
  intros A lt l Hw; split.
  - etransitivity; [apply Permutation.Permutation_rev|apply isort_perm].
  - apply isort_sorted; eapply swo_incl; [|exact Hw]; intros z Hz; apply in_rev; exact Hz.
Qed.
Example test_sort :
  serieEq (on (S 1 [3; 1; 4; 1; 5]) (sort_default stable_sorter)) (nums [1; 1; 3; 4; 5]) &&
  serieEq (on (S 2 [3; 1; 1; 2; 2; 2]) (sort_default stable_sorter)) (nums [1; 2; 2; 2; 3; 1]) &&
  serieEq (on (S 2 [3; 1; 1; 2; 2; 2]) (sort_by stable_sorter (fun a b => Bltb (item a 1) (item b 1)))) (nums [3; 1; 1; 2; 2; 2]) = true.
Proof. vm_compute; reflexivity. Qed.
(** the last assertion asks for more than [std::sort] promises: another conforming order of the two items with equal keys fails it *)
Example test_sort_unspecified : conforms insertion_sorter /\
  serieEq (on (S 2 [3; 1; 1; 2; 2; 2]) (sort_by insertion_sorter (fun a b => Bltb (item a 1) (item b 1)))) (nums [3; 1; 1; 2; 2; 2]) = false.
Proof. split; [exact insertion_sorter_conforms|vm_compute; reflexivity]. Qed.

(** ** stats.cxx *)
Definition ages := S 1 [57; 57; 57; 58; 63; 66; 66; 67; 67; 68; 69; 70; 70; 70; 70; 72; 73; 75; 75; 76; 76; 78; 79; 81].
Definition mean1 (o : outcome (Serie F64)) : outcome (list F64) := let* s := o in let* m := mean s in match m with Number x => Ok [x] | Vector _ => UB end.
Definition mean_v (o : outcome (Serie F64)) : outcome (list F64) := let* s := o in let* m := mean s in match m with Number _ => UB | Vector v => Ok v end.
Definition cov2 (x y : outcome (Serie F64)) : outcome (list F64) := let* x := x in let* y := y in let* c := covariance x y in Ok [c].
Definition rx := serie_of 1 [dec 90010907 8; dec 13484424 8; dec 62036035 8] 3.
Definition ry := serie_of 1 [dec 12528585 8; dec 26962463 8; dec 51111198 8] 3.
Example test_stats :
  serieEq (on ages (fun s => bins s 10)) (nums [4; 0; 1; 2; 3; 5; 2; 4; 1; 2]) &&
  serieEq (on ages (fun s => bins_between s 10 #0 #100)) (nums [0; 0; 0; 0; 0; 4; 7; 12; 1; 0]) &&
  arrayEq tol7 (mean1 (S 1 [0; 1; 2; 3; 4; 5; 6; 7; 8])) (nums [4]) && arrayEq tol7 (mean_v (S 3 [0; 1; 2; 3; 4; 5; 6; 7; 8])) (nums [3; 4; 5]) &&
  arrayEq tol7 (mean1 ps1) [dec 25 1] && arrayEq tol7 (mean1 (S 1 [5; 6; 7; 8])) [dec 65 1] && arrayEq tol7 (cov2 ps1 (S 1 [5; 6; 7; 8])) [dec 125 2] &&
  arrayEq (dec 1 3) (mean1 rx) [dec 5518 4] && arrayEq (dec 1 3) (mean1 ry) [dec 302 3] && arrayEq (dec 1 3) (cov2 rx ry) [dec (-11238) 6] = true.
Proof. vm_compute; reflexivity. Qed.

(** ** transpose.cxx *)
Example test_transpose :
  serieEq (on (S 4 [1; 2; 3; 4]) transpose) (nums [1; 3; 2; 4]) && shouldThrow (on (S 5 [1; 2; 3; 4; 5]) transpose) &&
  serieEq (on (S 9 [1; 2; 3; 4; 5; 6; 7; 8; 9]) transpose) (nums [1; 4; 7; 2; 5; 8; 3; 6; 9]) && shouldThrow (on (S 8 [1; 2; 3; 4; 5; 6; 7; 8]) transpose) = true.
Proof. vm_compute; reflexivity. Qed.

(** ** unzip.cxx, zip.cxx *)
Example test_zip :
  match S 1 [1; 2], S 2 [3; 4; 5; 6], S 3 [7; 8; 9; 10; 11; 12] with
  | Ok s1, Ok s2, Ok s3 =>
      serieEq (zip_series [s1; s2; s3]) (nums [1; 3; 4; 7; 8; 9; 2; 5; 6; 10; 11; 12]) &&
      match on (zip_series [s1; s2; s3]) (fun z => unzip z [1; 2; 3]) with Ok [t1; t2; t3] => sameSerie (Ok t1) (Ok s1) && sameSerie (Ok t2) (Ok s2) && sameSerie (Ok t3) (Ok s3) | _ => false end
  | _, _, _ => false
  end &&
  match series [S 1 [1; 2; 3]; S 2 [4; 5; 6; 7; 8; 9]; S 1 [10; 11; 12]] with
  | Ok ss => serieEq (zip_series ss) (nums [1; 4; 5; 10; 2; 6; 7; 11; 3; 8; 9; 12]) && serieEq (zipVector ss) (nums [1; 4; 5; 10; 2; 6; 7; 11; 3; 8; 9; 12])
  | _ => false
  end = true.
Proof. vm_compute; reflexivity. Qed.

(** ** weigthedSum.cxx *)
Definition ws (l : list (outcome (Serie F64))) (w : list Z) : outcome (Serie F64) := on (series l) (fun ss => weigthedSum ss (nums w)).
Example test_weigthedSum :
  serieEq (ws [sa; sb; sc] [2; 3; 4]) (nums [22; 21; 16; 15]) && shouldThrow (ws [sa; sb] [2; 3; 4]) && shouldThrow (ws [sa; sb; sd] [2; 3; 4]) && shouldThrow (ws [sa; sb; se] [2; 3; 4]) = true.
Proof. vm_compute; reflexivity. Qed.
