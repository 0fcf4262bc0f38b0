(** * The IEEE-754 binary64 instance of [Num], on Flocq's [binary_float].

    Round to nearest, ties to even.  There is a single NaN: payloads are not modelled. [sin], [cos] and [atan] come from
    libm, whose results the C++ standard does not fix: they are arbitrary parameters. *)
From Verif Require Import Base Num.
From Flocq Require Import Core.
From Flocq Require Import IEEE754.BinarySingleNaN.

Definition F64 : Type := binary_float 53 1024.

Lemma F64_prec : Prec_gt_0 53. Proof. reflexivity. Qed.
Lemma F64_emax : Prec_lt_emax 53 1024. Proof. reflexivity. Qed.
#[global] Existing Instance F64_prec.
#[global] Existing Instance F64_emax.

Record Libm : Type := { m_sin : F64 -> F64; m_cos : F64 -> F64; m_atan : F64 -> F64 }.

Definition f64_add : F64 -> F64 -> F64 := Bplus mode_NE.
Definition f64_sub : F64 -> F64 -> F64 := Bminus mode_NE.
Definition f64_mul : F64 -> F64 -> F64 := Bmult mode_NE.
Definition f64_div : F64 -> F64 -> F64 := Bdiv mode_NE.
Definition f64_sqrt : F64 -> F64 := Bsqrt mode_NE.
Definition f64_of_Z (z : Z) : F64 := binary_normalize 53 1024 _ _ mode_NE z 0 false.

Definition f64_num (L : Libm) : Num F64 := {|
  n_of_Z := f64_of_Z;
  n_add := f64_add;
  n_sub := f64_sub;
  n_mul := f64_mul;
  n_div := f64_div;
  n_opp := Bopp;
  n_abs := Babs;
  n_sqrt := f64_sqrt;
  n_floor := Bnearbyint mode_DN;
  n_trunc := Bnearbyint mode_ZR;
  n_sin := m_sin L;
  n_cos := m_cos L;
  n_atan := m_atan L;
  (* M_PI = 884279719003555 / 2^48 exactly *)
  n_pi := f64_div (f64_of_Z 884279719003555) (f64_of_Z (2 ^ 48));
  n_ltb := Bltb;
  n_leb := Bleb;
  n_eqb := Beqb;
  n_to_Z := fun x => if is_finite x then Some (Btrunc x) else None
|}.

(** A libm used in concrete examples that do not call it *)
Definition libm0 : Libm := {| m_sin := fun x => x; m_cos := fun x => x; m_atan := fun x => x |}.

(** small literals for examples: [#3] is the double 3.0 *)
Notation "# z" := (f64_of_Z z) (at level 5, z at level 4, format "# z").
Definition f64_inf : F64 := B754_infinity false.
Definition f64_ninf : F64 := B754_infinity true.
Definition f64_nan : F64 := B754_nan.

(** what a double is, without the proof it carries: used to compare computed values *)
Definition show (x : F64) := B2SF x.
