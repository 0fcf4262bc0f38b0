(** * Vectors and matrices of real numbers, for the statements on algebra.

    A matrix is a function of row and column; only the entries below the size matter. *)
From Verif Require Import Base Spec.
From Coq Require Import Reals Lra.
Open Scope R_scope.

Definition total (l : list R) : R := fold_right Rplus 0 l.
(** Euclidean inner product *)
Definition inner (u v : list R) : R := total (map2 Rmult u v).

Definition upto (n : nat) (f : nat -> R) : R := total (map f (seq 0 n)).
Definition Mat : Type := nat -> nat -> R.
Definition mat_mul (n : nat) (A B : Mat) : Mat := fun i j => upto n (fun k => A i k * B k j).
Definition mat_t (A : Mat) : Mat := fun i j => A j i.
Definition mat_id : Mat := fun i j => if Nat.eqb i j then 1 else 0.
Definition mat_eq (n : nat) (A B : Mat) : Prop := forall i j, (i < n)%nat -> (j < n)%nat -> A i j = B i j.
Definition mat_vec (n : nat) (A : Mat) (v : list R) : list R := map (fun i => upto n (fun k => A i k * nth k v 0)) (seq 0 n).
Definition swap_rows (p q : nat) (A : Mat) : Mat :=
  fun i => A (if Nat.eqb i p then q else if Nat.eqb i q then p else i).

(** determinant, expanding along the first row *)
Definition minor (j : nat) (A : Mat) : Mat := fun r c => A (S r) (if Nat.ltb c j then c else S c).
Fixpoint determinant (n : nat) (A : Mat) : R :=
  match n with
  | O => 1
  | S n' => upto n (fun j => (-1) ^ j * A O j * determinant n' (minor j A))
  end.

(** the matrix stored row by row; the symmetric 3x3 matrix stored as xx, xy, xz, yy, yz, zz; the symmetric 2x2 matrix stored
    as xx, xy, yy *)
Definition full (n : nat) (v : list R) : Mat := fun i j => nth (i * n + j) v 0.
Definition sym3 (v : list R) : Mat := fun i j => nth (nth (i * 3 + j) [0; 1; 2; 1; 3; 4; 2; 4; 5]%nat 0%nat) v 0.
Definition sym2 (v : list R) : Mat := fun i j => nth (nth (i * 2 + j) [0; 1; 1; 2]%nat 0%nat) v 0.

Arguments full n%nat v _%nat _%nat.
Arguments sym3 v _%nat _%nat.
Arguments sym2 v _%nat _%nat.
Arguments mat_mul n%nat A B _%nat _%nat.
Arguments mat_id _%nat _%nat.
