(** * The operations on [double] used by /repo, as a class.

    Structural definitions and theorems work for every instance.  [F64.v] gives the
    IEEE-754 binary64 instance, [RNum.v] the exact real one. *)
From Verif Require Import Base.

Class Num (T : Type) : Type := {
  n_of_Z : Z -> T;               (* conversion of an integer to double *)
  n_add : T -> T -> T;
  n_sub : T -> T -> T;
  n_mul : T -> T -> T;
  n_div : T -> T -> T;
  n_opp : T -> T;
  n_abs : T -> T;                (* std::abs, std::fabs *)
  n_sqrt : T -> T;
  n_floor : T -> T;
  n_trunc : T -> T;
  n_sin : T -> T;
  n_cos : T -> T;
  n_atan : T -> T;
  n_pi : T;                      (* M_PI *)
  n_ltb : T -> T -> bool;
  n_leb : T -> T -> bool;
  n_eqb : T -> T -> bool;
  n_to_Z : T -> option Z         (* truncation towards zero; None for NaN and infinities *)
}.

Section Derived.
  Context {T : Type} `{Num T}.

  Definition n0 : T := n_of_Z 0.
  Definition n1 : T := n_of_Z 1.

  (** the double nearest to the rational p/q, for p and q exactly representable *)
  Definition n_ratio (p q : Z) : T := n_div (n_of_Z p) (n_of_Z q).

  (** [std::numeric_limits<double>::max()] = (2^53 - 1) * 2^971, and [lowest()] *)
  Definition n_dblmax : T := n_of_Z ((2 ^ 53 - 1) * 2 ^ 971).
  Definition n_lowest : T := n_of_Z (- ((2 ^ 53 - 1) * 2 ^ 971)).

  (** double to [uint32_t] / [int] / [size_t]: undefined behaviour when the truncated value is not
      representable ([conv.fpint]) *)
  Definition n_to_u32 (x : T) : outcome Z :=
    match n_to_Z x with
    | Some z => if (0 <=? z) && (z <? two32) then Ok z else UB
    | None => UB
    end.
  Definition n_to_s32 (x : T) : outcome Z :=
    match n_to_Z x with
    | Some z => if (- two31 <=? z) && (z <? two31) then Ok z else UB
    | None => UB
    end.
  Definition n_to_u64 (x : T) : outcome Z :=
    match n_to_Z x with
    | Some z => if (0 <=? z) && (z <? two64) then Ok z else UB
    | None => UB
    end.

  (** [std::min(a,b)] = (b < a) ? b : a;  [std::max(a,b)] = (a < b) ? b : a *)
  Definition n_min (a b : T) : T := if n_ltb b a then b else a.
  Definition n_max (a b : T) : T := if n_ltb a b then b else a.
End Derived.

Declare Scope num_scope.
Delimit Scope num_scope with num.
Infix "[+]" := n_add (at level 50, left associativity) : num_scope.
Infix "[-]" := n_sub (at level 50, left associativity) : num_scope.
Infix "[*]" := n_mul (at level 40, left associativity) : num_scope.
Infix "[/]" := n_div (at level 40, left associativity) : num_scope.
