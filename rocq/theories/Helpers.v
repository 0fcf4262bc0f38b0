(** * Small helpers of the headers. *)
From Verif Require Import Base Num Serie.
Open Scope Z_scope.

Section Helpers.
  Context {T : Type}.
  (** include/dataframe/utils.h:34-45 [utils::count] (a pack) and [getCount] (a vector); [size_t] holds every [uint32_t] *)
  Definition getCount (ss : list (Serie T)) : list Z := fold_left (fun counts s => counts ++ [count s]) ss [].

  (** the exception of [countAndCheck] with the three numbers of its message *)
  Inductive checked := Counts (counts : list Z) | Mismatch (first index other : Z).
  (** include/dataframe/utils.h:47-71, both overloads: [for (i = 1; i < counts.size(); ++i) if (counts[i] != counts[0]) throw] *)
  Fixpoint check_counts (counts : list Z) (first : Z) (rest : list Z) (i : Z) : checked :=
    match rest with
    | [] => Counts counts
    | c :: rest' => if negb (c =? first) then Mismatch first i c else check_counts counts first rest' (i + 1)
    end.
  Definition countsAndCheck (ss : list (Serie T)) : checked :=
    let counts := getCount ss in
    match counts with
    | [] => Counts counts
    | first :: rest => check_counts counts first rest 1
    end.
End Helpers.

(** include/dataframe/utils/utils.h:55-63 [map] on [std::vector]: [push_back(func(element))] for every element *)
Definition vec_map {A St} (func : A -> M St A) (input : list A) : M St (list A) :=
  foldM (fun result element => let! y := func element in ret (result ++ [y])) input [].

(** include/dataframe/utils/utils.h:65-68 [contains]: [std::find], which compares [*it == item] *)
Fixpoint std_find {C} (eqb : C -> C -> bool) (vec : list C) (item : C) : option nat :=
  match vec with
  | [] => None
  | x :: r => if eqb x item then Some 0%nat else option_map S (std_find eqb r item)
  end.
Definition vec_contains {C} (eqb : C -> C -> bool) (vec : list C) (item : C) : bool :=
  match std_find eqb vec item with Some _ => true | None => false end.
