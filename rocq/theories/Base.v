(** * Outcomes, callback monad, machine integers, checked vector access.

    These are the few constructs the C++ code in /repo is expressed with. *)
From Coq Require Export List ZArith Lia Bool.
From Coq Require Export ZifyBool ZifyNat ZifyN.
Export ListNotations.
#[global] Open Scope Z_scope.

(** ** Outcome of a call

    [Throw]: a C++ exception.  The exceptions thrown by /repo are
    [std::invalid_argument] and [std::runtime_error]; [std::length_error] is thrown by
    [std::vector] when its size exceeds [max_size()]; [UserExn] stands for any exception thrown
    by a user callback that is none of these.
    [UB]: undefined behaviour (out-of-range [operator[]], division by zero, ...). *)
Inductive exn : Type :=
| InvalidArgument
| RuntimeError
| LengthError
| UserExn (tag : Z).

Inductive outcome (A : Type) : Type :=
| Ok (a : A)
| Throw (e : exn)
| UB.
Arguments Ok {A} a.
Arguments Throw {A} e.
Arguments UB {A}.

Definition obind {A B} (m : outcome A) (k : A -> outcome B) : outcome B :=
  match m with
  | Ok a => k a
  | Throw e => Throw e
  | UB => UB
  end.

Declare Scope out_scope.
Delimit Scope out_scope with out.
Notation "'let*' x := m 'in' k" := (obind m (fun x => k))
  (at level 200, x pattern, m at level 100, k at level 200, right associativity) : out_scope.
Open Scope out_scope.

(** [mapO f l]: run [f] on the elements from left to right, stop at the first
    non-[Ok] outcome. *)
Fixpoint mapO {A B} (f : A -> outcome B) (l : list A) : outcome (list B) :=
  match l with
  | [] => Ok []
  | x :: r => let* y := f x in let* ys := mapO f r in Ok (y :: ys)
  end.

(** [foldO f l a]: the [for] loop with loop variable ranging over [l] and
    state [a]. *)
Fixpoint foldO {A B} (f : A -> B -> outcome A) (l : list B) (a : A) : outcome A :=
  match l with
  | [] => Ok a
  | x :: r => let* a' := f a x in foldO f r a'
  end.

(** ** Callback monad

    A user callback may depend on and change a state [St] chosen by the user (captured
    variables, globals, files, ...).  Changes made before an exception persist. *)
Definition M (St A : Type) : Type := St -> outcome A * St.

Definition ret {St A} (a : A) : M St A := fun st => (Ok a, st).
Definition throwM {St A} (e : exn) : M St A := fun st => (Throw e, st).
Definition lift {St A} (o : outcome A) : M St A := fun st => (o, st).
Definition mbind {St A B} (m : M St A) (k : A -> M St B) : M St B :=
  fun st => match m st with
            | (Ok a, st') => k a st'
            | (Throw e, st') => (Throw e, st')
            | (UB, st') => (UB, st')
            end.

Notation "'let!' x := m 'in' k" := (mbind m (fun x => k))
  (at level 200, x pattern, m at level 100, k at level 200, right associativity) : out_scope.

Fixpoint mapM {St A B} (f : A -> M St B) (l : list A) : M St (list B) :=
  match l with
  | [] => ret []
  | x :: r => let! y := f x in let! ys := mapM f r in ret (y :: ys)
  end.

Fixpoint foldM {St A B} (f : A -> B -> M St A) (l : list B) (a : A) : M St A :=
  match l with
  | [] => ret a
  | x :: r => let! a' := f a x in foldM f r a'
  end.

(** Callbacks without state: run with the trivial state. *)
Definition run {A} (m : M unit A) : outcome A := fst (m tt).

(** ** Machine integers (C++20: conversions are modular) *)
Definition two32 : Z := 4294967296.
Definition two31 : Z := 2147483648.
Definition two64 : Z := 18446744073709551616.

(** conversion to [uint32_t] *)
Definition u32 (x : Z) : Z := x mod two32.
(** conversion to [int] *)
Definition s32 (x : Z) : Z := (x + two31) mod two32 - two31.
(** conversion to [size_t] (64 bit) *)
Definition u64 (x : Z) : Z := x mod two64.

(** ** Vectors *)
Definition len {A} (l : list A) : Z := Z.of_nat (length l).

(** indices [0, 1, ..., n-1]: the values of the counter of
    [for (i = 0; i < n; ++i)] *)
Definition iota (n : Z) : list Z := map Z.of_nat (seq 0 (Z.to_nat n)).

(** indices [a, a+1, ..., n-1]: the values of the counter of [for (i = a; i < n; ++i)] *)
Definition iota_from (a n : Z) : list Z :=
  map Z.of_nat (seq (Z.to_nat a) (Z.to_nat (n - a))).

(** [l[i]]: undefined behaviour when out of range *)
Definition rd {A} (l : list A) (i : Z) : outcome A :=
  if (0 <=? i) && (i <? len l) then
    match nth_error l (Z.to_nat i) with
    | Some x => Ok x
    | None => UB
    end
  else UB.

Fixpoint upd_nat {A} (l : list A) (n : nat) (x : A) : list A :=
  match l, n with
  | [], _ => []
  | _ :: r, O => x :: r
  | y :: r, S n' => y :: upd_nat r n' x
  end.

(** [l[i] = x]: undefined behaviour when out of range *)
Definition wr {A} (l : list A) (i : Z) (x : A) : outcome (list A) :=
  if (0 <=? i) && (i <? len l) then Ok (upd_nat l (Z.to_nat i) x) else UB.

(** [std::vector<T>(n, x)] *)
Definition replicate {A} (n : Z) (x : A) : list A := repeat x (Z.to_nat n).
