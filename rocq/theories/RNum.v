(** * Exact real arithmetic as an instance of [Num].

    Used for properties stated "in exact arithmetic".  Division by zero gives an unspecified real. *)
From Verif Require Import Base Num.
From Coq Require Import Reals.
From Flocq Require Import Core.
Open Scope Z_scope.

Definition r_num : Num R := {|
  n_of_Z := IZR;
  n_add := Rplus;
  n_sub := Rminus;
  n_mul := Rmult;
  n_div := Rdiv;
  n_opp := Ropp;
  n_abs := Rabs;
  n_sqrt := sqrt;
  n_floor := fun x => IZR (Zfloor x);
  n_trunc := fun x => IZR (Ztrunc x);
  n_sin := sin;
  n_cos := cos;
  n_atan := atan;
  n_pi := PI;
  n_ltb := Rlt_bool;
  n_leb := Rle_bool;
  n_eqb := Req_bool;
  n_to_Z := fun x => Some (Ztrunc x)
|}.
