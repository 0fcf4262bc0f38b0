(** * Vector::toString (src/view/Vector.cxx:119-127).

    A text is the list of its characters.  [std::to_string(double)] is [sprintf("%f")]: the C library of the reference platform
    rounds the exact value to six decimals, half to even; the sign of a NaN is not represented in the model (it prints "nan" for
    either). *)
From Verif Require Import Base Num Serie F64.
From Flocq Require Import Core IEEE754.BinarySingleNaN.
From Coq Require Import Ascii String.
Import ListNotations.
Open Scope Z_scope.
Open Scope list_scope.

Definition text : Type := list ascii.
Definition tab : ascii := "009"%char.
Definition digit (d : Z) : ascii := ascii_of_N (Z.to_N (48 + d)).
(** the [k] lowest decimal digits of [n] *)
Fixpoint low_digits (k : nat) (n : Z) : text :=
  match k with O => [] | S k' => low_digits k' (n / 10) ++ [digit (n mod 10)] end.
(** all decimal digits of [n], without leading zeros; [fuel] at least the number of digits *)
Fixpoint all_digits (fuel : nat) (n : Z) : text :=
  match fuel with
  | O => []
  | S f => if n <? 10 then [digit n] else all_digits f (n / 10) ++ [digit (n mod 10)]
  end.
(** a number of millionths with six decimals *)
Definition fixed6 (n : Z) : text :=
  all_digits (S (Z.to_nat (Z.log2 (n / 1000000)))) (n / 1000000) ++ "."%char :: low_digits 6 (n mod 1000000).
(** n / d to the nearest integer, ties to even *)
Definition div_even (n d : Z) : Z :=
  match 2 * (n mod d) ?= d with
  | Lt => n / d
  | Gt => n / d + 1
  | Eq => if Z.even (n / d) then n / d else n / d + 1
  end.
(** millionths of m 2^e *)
Definition millionths (m : positive) (e : Z) : Z :=
  if 0 <=? e then Zpos m * 2 ^ e * 1000000 else div_even (Zpos m * 1000000) (2 ^ (- e)).
Definition sign_text (s : bool) : text := if s then ["-"%char] else [].
(** [std::to_string(x)] *)
Definition to_string (x : F64) : text :=
  match x with
  | B754_nan => list_ascii_of_string "nan"
  | B754_infinity s => sign_text s ++ list_ascii_of_string "inf"
  | B754_zero s => sign_text s ++ fixed6 0
  | B754_finite s m e _ => sign_text s ++ fixed6 (millionths m e)
  end.
(** Vector.cxx:119-127, for fewer than 2^32 components (with more, the counter [uint32_t i] never reaches the size) *)
Definition v_toString (v : list F64) : outcome text :=
  foldO (fun s i => let* x := rd v i in Ok (s ++ to_string x ++ [tab])) (iota (len v)) [].
