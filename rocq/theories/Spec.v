(** * Vocabulary of the property statements.

    Nothing here is used by the model; it only refers to the [Serie] record and to the outcome and callback types. *)
From Verif Require Import Base Num Serie.

(** ** Series and their rows

    [repr s k rows]: [s] holds the items [rows], each of [k] numbers.  The storage may carry
    leftover numbers after the last complete item.  [k] fits in an [int], the number of items and the number of
    stored components fit in a [uint32_t]. *)
Definition rows_of_size {T} (k : Z) (rows : list (list T)) : Prop :=
  Forall (fun r => len r = k) rows.

Definition repr {T} (s : Serie T) (k : Z) (rows : list (list T)) : Prop :=
  itemSize_ s = k /\
  count_ s = len rows /\
  (exists leftover, s_ s = concat rows ++ leftover) /\
  rows_of_size k rows /\
  0 <= k < 2147483648 /\
  len rows < 4294967296 /\
  k * len rows < 4294967296.

(** the Serie holding exactly [rows], nothing left over *)
Definition mk {T} (k : Z) (rows : list (list T)) (dim : Z) : Serie T :=
  {| s_ := concat rows; count_ := len rows; dimension_ := dim; itemSize_ := k |}.

(** scalar rows *)
Definition col {T} (xs : list T) : list (list T) := map (fun x => [x]) xs.

(** ** Elements with their index *)
Fixpoint enum_from {A} (i : Z) (l : list A) : list (A * Z) :=
  match l with
  | [] => []
  | x :: r => (x, i) :: enum_from (i + 1) r
  end.
Definition enum {A} (l : list A) : list (A * Z) := enum_from 0 l.

(** ** Call traces

    [calls f l st ys st']: calling [f] on the arguments [l], one after the other, starting in state [st], every call returns;
    the results are [ys] and the final state is [st']. *)
Inductive calls {St A B} (f : A -> Z -> M St B) : list (A * Z) -> St -> list B -> St -> Prop :=
| calls_nil : forall st, calls f [] st [] st
| calls_cons : forall x i r st y st1 ys st2,
    f x i st = (Ok y, st1) -> calls f r st1 ys st2 ->
    calls f ((x, i) :: r) st (y :: ys) st2.

(** [calls_throw f l st e st']: a prefix of the calls returns, the next one throws [e]; no later call is made; the state
    is then [st']. *)
Inductive calls_throw {St A B} (f : A -> Z -> M St B) : list (A * Z) -> St -> exn -> St -> Prop :=
| ct_here : forall x i r st e st1,
    f x i st = (Throw e, st1) -> calls_throw f ((x, i) :: r) st e st1
| ct_later : forall x i r st y st1 e st2,
    f x i st = (Ok y, st1) -> calls_throw f r st1 e st2 ->
    calls_throw f ((x, i) :: r) st e st2.

Inductive calls_ub {St A B} (f : A -> Z -> M St B) : list (A * Z) -> St -> St -> Prop :=
| cu_here : forall x i r st st1,
    f x i st = (UB, st1) -> calls_ub f ((x, i) :: r) st st1
| cu_later : forall x i r st y st1 st2,
    f x i st = (Ok y, st1) -> calls_ub f r st1 st2 ->
    calls_ub f ((x, i) :: r) st st2.

(** Elements of [xs] whose flag is true / false *)
Fixpoint select {A} (xs : list A) (bs : list bool) : list A :=
  match xs, bs with
  | x :: xs', b :: bs' => if b then x :: select xs' bs' else select xs' bs'
  | _, _ => []
  end.

(** Row [i] of several Series at once: [across tables i] is the list of the rows of index i *)
Definition across {T} (tables : list (list (list T))) (i : nat) : list (list T) :=
  map (fun rows => nth i rows []) tables.
Definition tuples {T} (n : nat) (tables : list (list (list T))) : list (list (list T)) :=
  map (across tables) (seq 0 n).

(** ** Folds with an accumulator, calling [f] on the elements in order *)
Inductive folds {St A X} (f : A -> X -> Z -> M St A) : list (X * Z) -> A -> St -> A -> St -> Prop :=
| folds_nil : forall a st, folds f [] a st a st
| folds_cons : forall x i r a st a1 st1 a2 st2,
    f a x i st = (Ok a1, st1) -> folds f r a1 st1 a2 st2 -> folds f ((x, i) :: r) a st a2 st2.
Inductive folds_throw {St A X} (f : A -> X -> Z -> M St A) : list (X * Z) -> A -> St -> exn -> St -> Prop :=
| ft_here : forall x i r a st e st1,
    f a x i st = (Throw e, st1) -> folds_throw f ((x, i) :: r) a st e st1
| ft_later : forall x i r a st a1 st1 e st2,
    f a x i st = (Ok a1, st1) -> folds_throw f r a1 st1 e st2 -> folds_throw f ((x, i) :: r) a st e st2.

(** ** Several Series at once: item size and rows of each *)
Definition reprs {T} (ss : list (Serie T)) (kts : list (Z * list (list T))) : Prop :=
  Forall2 (fun s kt => repr s (fst kt) (snd kt)) ss kts.
Definition same_count {T} (n : Z) (kts : list (Z * list (list T))) : Prop :=
  Forall (fun kt => len (snd kt) = n) kts.

(** ** Chains of functions: values and states flow from stage to stage; the first exception ends the run *)
Inductive stages {St D} : list (D -> M St D) -> D -> St -> outcome D -> St -> Prop :=
| st_end : forall x st, stages [] x st (Ok x) st
| st_ok : forall f fs x st y st1 o st2,
    f x st = (Ok y, st1) -> stages fs y st1 o st2 -> stages (f :: fs) x st o st2
| st_throw : forall f fs x st e st1,
    f x st = (Throw e, st1) -> stages (f :: fs) x st (Throw e) st1.

(** ** Merging *)
Fixpoint interleave {A} (a b : list A) : list A :=
  match a, b with
  | [], _ => b
  | _, [] => a
  | x :: a', y :: b' => x :: y :: interleave a' b'
  end.

(** take the first element of every list, then go on with the rests *)
Fixpoint round_robin {A} (rounds : nat) (tables : list (list A)) : list A :=
  match rounds with
  | O => []
  | S r => flat_map (firstn 1) tables ++ round_robin r (map (skipn 1) tables)
  end.
Definition longest {A} (tables : list (list A)) : nat := fold_right Nat.max O (map (@length A) tables).

(** ** Cutting a list into consecutive pieces of given sizes, and rows into columns of given widths *)
Fixpoint split_sizes {A} (sizes : list nat) (l : list A) : list (list A) :=
  match sizes with
  | [] => []
  | n :: r => firstn n l :: split_sizes r (skipn n l)
  end.
Definition total (sizes : list nat) : nat := fold_right Nat.add O sizes.
Fixpoint columns {A} (widths : list Z) (rows : list (list A)) : list (list (list A)) :=
  match widths with
  | [] => []
  | k :: r => map (firstn (Z.to_nat k)) rows :: columns r (map (skipn (Z.to_nat k)) rows)
  end.
Definition sumZ (l : list Z) : Z := fold_right Z.add 0 l.

(** sizes that differ by at most one, larger ones first *)
Definition balanced (sizes : list nat) : Prop :=
  exists q a b, sizes = repeat (S q) a ++ repeat q b.

(** ** Text with separators between the pieces *)
Fixpoint join {A} (sep : list A) (l : list (list A)) : list A :=
  match l with
  | [] => []
  | [x] => x
  | x :: r => x ++ sep ++ join sep r
  end.

(** ** Two lists in step *)
Fixpoint map2 {A B C} (f : A -> B -> C) (a : list A) (b : list B) : list C :=
  match a, b with
  | x :: a', y :: b' => f x y :: map2 f a' b'
  | _, _ => []
  end.
