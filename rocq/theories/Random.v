(** * Random Series: src/functional/math/random.cxx, and the parts of <random> it uses

    [std::mt19937] is fixed by the C++ standard ([rand.eng.mers], [rand.predef]).  [std::uniform_real_distribution] is not: it is
    given as libstdc++ computes it, [generate_canonical() * (b - a) + a], for an arbitrary [generate_canonical], and for the one of
    libstdc++ (bits/random.tcc). *)
From Verif Require Import Base Num Serie F64.
From Flocq Require Import IEEE754.BinarySingleNaN.
Open Scope Z_scope.
Open Scope num_scope.

(** ** random.cxx *)
Section Random.
  Context {T St : Type} `{Num T}.
  (** [dis(gen)] *)
  Variable draw : M St T.

  (** random.cxx:51-63; [itemSize] is converted to [int] by the constructor of Serie *)
  Definition random (count itemSize : Z) : M St (Serie T) :=
    foldM (fun result i =>
      if itemSize =? 1 then let! x := draw in lift (set_double result i x)
      else let! values := mapM (fun _ => draw) (iota itemSize) in lift (set_array result i values))
      (iota count) (serie_n (s32 itemSize) count 3).
End Random.

(** ** uniform_real_distribution<double>, libstdc++ *)
(** the constructor's condition [a <= b] is checked in debug mode only *)
Definition uniform {T St} `{Num T} (canonical : M St T) (a b : T) : M St T :=
  let! c := canonical in ret (c [*] (b [-] a) [+] a).

(** generate_canonical<double, 53> over 32-bit words: two words are drawn, the first one is the lower half; results that are
    rounded up to 1 are replaced by nextafter(1, 0) *)
Definition below_one : F64 := f64_div (f64_of_Z (2 ^ 53 - 1)) (f64_of_Z (2 ^ 53)).
Definition canonical {St} (word : St -> Z * St) : M St F64 := fun st =>
  let '(w0, st1) := word st in
  let sum := f64_add (f64_of_Z 0) (f64_mul (f64_of_Z w0) (f64_of_Z 1)) in
  let '(w1, st2) := word st1 in
  let sum := f64_add sum (f64_mul (f64_of_Z w1) (f64_of_Z (2 ^ 32))) in
  let r := f64_div sum (f64_of_Z (2 ^ 64)) in
  (Ok (if Bleb (f64_of_Z 1) r then below_one else r), st2).

(** ** mt19937 *)
Definition mt_seed_step (x i : Z) : Z := u32 (1812433253 * (Z.lxor x (Z.shiftr x 30)) + i).
Fixpoint mt_fill (x : Z) (i : Z) (n : nat) : list Z :=
  match n with
  | O => []
  | S n => x :: mt_fill (mt_seed_step x (i + 1)) (i + 1) n
  end.
(** the words of the state, and those not read yet *)
Record mt : Type := mkMt { mt_block : list Z; mt_rest : list Z }.
Definition mt_seed (seed : Z) : mt := mkMt (mt_fill (u32 seed) 0 624) [].
(** the new word from x[k], x[k+1] and x[k+397] *)
Definition mt_twist (x y z : Z) : Z :=
  let w := Z.lor (Z.land x 2147483648) (Z.land y 2147483647) in
  Z.lxor (Z.lxor z (Z.shiftr w 1)) (if Z.odd w then 2567483615 else 0).
Fixpoint twist3 (a b c : list Z) : list Z :=
  match a, b, c with
  | x :: a, y :: b, z :: c => mt_twist x y z :: twist3 a b c
  | _, _, _ => []
  end.
(** the new block in four stretches: k < 227 uses the old block only, later words use new ones; the last one wraps around *)
Definition mt_next (x : list Z) : list Z :=
  let b1 := twist3 (firstn 227 x) (skipn 1 x) (skipn 397 x) in
  let b2 := twist3 (firstn 227 (skipn 227 x)) (skipn 228 x) b1 in
  let b3 := twist3 (firstn 169 (skipn 454 x)) (skipn 455 x) b2 in
  let new := b1 ++ b2 ++ b3 in
  new ++ twist3 (skipn 623 x) new (skipn 396 new).
Definition mt_temper (z : Z) : Z :=
  let z := Z.lxor z (Z.shiftr z 11) in
  let z := Z.lxor z (Z.land (u32 (Z.shiftl z 7)) 2636928640) in
  let z := Z.lxor z (Z.land (u32 (Z.shiftl z 15)) 4022730752) in
  Z.lxor z (Z.shiftr z 18).
Definition mt_word (g : mt) : Z * mt :=
  let '(block, rest) := match mt_rest g with [] => let b := mt_next (mt_block g) in (b, b) | r => (mt_block g, r) end in
  match rest with
  | [] => (0, mkMt block [])
  | z :: r => (mt_temper z, mkMt block r)
  end.

(** random.cxx:47-64 *)
Definition random_serie (L : Libm) (count itemSize : Z) (min max : F64) (seed : Z) : outcome (Serie F64) :=
  fst (random (H := f64_num L) (uniform (H := f64_num L) (canonical mt_word) min max) count itemSize (mt_seed seed)).
