(** * The attribute manager: src/attributes/*.cxx, include/dataframe/attributes/*.h

    [std::string] is [String.string], a list of bytes.  A [const Serie &] that refers to a Serie of the Dataframe is given by
    its address and its value, as in [Dataframe.v].  A Decomposer is the pair of its two virtual functions; they may have effects
    on a state [St] (UserDefinedDecomposer runs a callback of the user). *)
From Verif Require Import Base Num Serie Functional Mathf Algebra Eigen Geo Dataframe.
From Coq Require String Ascii DecimalString.
Import String.StringSyntax.
Open Scope Z_scope.
Open Scope num_scope.

(** [a + b] on [std::string] *)
Notation "a +++ b" := (String.append a b) (at level 60, right associativity).

(** [name.substr(0, name.size() - k)]: for names shorter than [k] the subtraction wraps and [substr] returns the whole name *)
Definition chop (k : nat) (name : string) : string :=
  if (String.length name <? k)%nat then name else String.substring 0 (String.length name - k) name.
(** [std::to_string(i)] *)
Definition to_string (i : Z) : string := DecimalString.NilEmpty.string_of_int (Z.to_int i).
(** [uint id = name[name.size() - 1]], EigenValues.cxx:58, EigenVectors.cxx:58: the code of the last character ([char] is
    signed); undefined for the empty name *)
Definition last_id (name : string) : outcome Z :=
  match String.get (String.length name - 1) name with
  | Some c => let z := Z.of_N (Ascii.N_of_ascii c) in Ok (u32 (if z <? 128 then z else z - 256))
  | None => UB
  end.
(** insertion into [std::set<String>], kept as the increasing list of its elements *)
Fixpoint set_insert (x : string) (l : list string) : list string :=
  match l with
  | [] => [x]
  | y :: r => match String.compare x y with
              | Lt => x :: y :: r
              | Eq => y :: r
              | Gt => y :: set_insert x r
              end
  end.

Section Attributes.
  Context {T : Type} `{Num T} {St : Type}.

  (** Decomposer.h:36-41 *)
  Record decomposer : Type := mkDecomposer {
    d_names : Dataframe T -> Z -> (Z * Serie T) -> string -> M St (list string);
    d_serie : Dataframe T -> Z -> string -> M St (Serie T) }.
  (** Decomposer.cxx:29-35 *)
  Definition base_decomposer : decomposer := mkDecomposer (fun _ _ _ _ => ret []) (fun _ _ _ => ret serie_default).

  (** [serie.map([i](const Array &item, uint32_t) { return Array{item[i]}; })] *)
  Definition component (i : Z) (s : Serie T) : outcome (Serie T) :=
    run (map_vv (fun item _ => lift (let* x := rd item i in Ok [x])) s).

  (** ** Manager.cxx *)
  (** Manager.cxx:61-72: the loop over the stored Series *)
  Fixpoint stored_serie (itemSize_wanted : Z) (name : string) (l : list (entry T)) : outcome (option (Serie T)) :=
    match l with
    | [] => Ok None
    | (sname, (_, s)) :: r =>
        if (itemSize s =? itemSize_wanted) && String.eqb name sname then let* c := clone s in Ok (Some c)
        else stored_serie itemSize_wanted name r
    end.
  (** Manager.cxx:74-82 *)
  Fixpoint first_valid (ds : list decomposer) (d : Dataframe T) (k : Z) (name : string) : M St (Serie T) :=
    match ds with
    | [] => ret serie_default
    | dec :: r => let! s := d_serie dec d k name in if isValid s then ret s else first_valid r d k name
    end.
  (** Manager.cxx:59-83 *)
  Definition manager_serie (d : Dataframe T) (ds : list decomposer) (k : Z) (name : string) : M St (Serie T) :=
    let! o := lift (stored_serie k name (df_series d)) in
    match o with Some s => ret s | None => first_valid ds d k name end.
  (** Manager.cxx:85-114; [dimension_] is the third argument of the constructor *)
  Definition manager_names (d : Dataframe T) (ds : list decomposer) (dimension_ : Z) (k : Z) : M St (list string) :=
    foldM (fun names (e : entry T) =>
      let '(name, (a, s)) := e in
      let names := if (itemSize s =? k) && (dimension s =? dimension_) then
                     if negb (String.eqb name "positions") && negb (String.eqb name "indices") then set_insert name names else names
                   else names in
      foldM (fun names dec =>
        let! otherNames := d_names dec d k (a, s) name in
        ret (fold_left (fun names x => set_insert x names) otherNames names)) ds names) (df_series d) [].
  (** Manager.cxx:116-120 *)
  Definition manager_contains (d : Dataframe T) (ds : list decomposer) (dimension_ : Z) (k : Z) (name : string) : M St bool :=
    let! n := manager_names d ds dimension_ k in ret (existsb (String.eqb name) n).

  (** ** Components.cxx *)
  Definition vector2Names : list string := ["x"; "y"]%string.
  Definition smatrix2Names : list string := ["xx"; "xy"; "yy"]%string.
  Definition matrix2Names : list string := ["xx"; "xy"; "yx"; "yy"]%string.
  Definition vector3Names : list string := ["x"; "y"; "z"]%string.
  Definition smatrix3Names : list string := ["xx"; "xy"; "xz"; "yy"; "yz"; "zz"]%string.
  Definition matrix3Names : list string := ["xx"; "xy"; "xz"; "yx"; "yy"; "yz"; "zx"; "zy"; "zz"]%string.

  (** Components.cxx:53-102.  The loop of lines 97-99 counts to the requested item size, not to that of the Serie. *)
  Definition components_names (d : Dataframe T) (k : Z) (ref : Z * Serie T) (name : string) : list string :=
    let '(a, s) := ref in
    let numbered := map (fun i => name +++ to_string i) (iota k) in
    let with_names l := map (fun n => name +++ n) l in
    if String.eqb name "positions" || String.eqb name "indices" then []
    else if String.eqb name (nameOfSerie d a) && (itemSize s =? 1) then []
    else if 1 <? k then []
    else if dimension s =? 2 then
      if itemSize s =? 2 then with_names vector2Names
      else if itemSize s =? 3 then with_names smatrix2Names
      else if itemSize s =? 4 then with_names matrix2Names
      else numbered
    else
      if itemSize s =? 3 then with_names vector3Names
      else if itemSize s =? 6 then with_names smatrix3Names
      else if itemSize s =? 9 then with_names matrix3Names
      else numbered.

  (** [for (i = 0; i < names.size(); ++i) if (name == newName + names[i]) return ...]: the number found *)
  Fixpoint index_of (name newName : string) (l : list string) (i : Z) : option Z :=
    match l with
    | [] => None
    | n :: r => if String.eqb name (newName +++ n) then Some i else index_of name newName r (i + 1)
    end.
  Definition or_else {A} (a b : option A) : option A := match a with Some x => Some x | None => b end.

  (** Components.cxx:104-185.  [serie] is a copy of the first Serie looked up (112); the later ones are assigned to it (136, 174),
      and the assignment does not change [dimension_]. *)
  Definition components_serie (d : Dataframe T) (k : Z) (name : string) : outcome (Serie T) :=
    if 1 <? k then Ok serie_default
    else
      let newName := chop 1 name in
      let serie := serie_copy (df_get d newName) in
      match (if isValid serie then index_of name newName (if dimension serie =? 2 then vector2Names else vector3Names) 0 else None) with
      | Some i => component i serie
      | None =>
        let newName := chop 2 name in
        let serie := serie_assign serie (df_get d newName) in
        match (if isValid serie then
                 if dimension serie =? 2 then or_else (index_of name newName smatrix2Names 0) (index_of name newName matrix2Names 0)
                 else or_else (index_of name newName smatrix3Names 0) (index_of name newName matrix3Names 0)
               else None) with
        | Some i => component i serie
        | None =>
          let newName := chop 1 name in
          let serie := serie_assign serie (df_get d newName) in
          match (if isValid serie then index_of name newName (map to_string (iota k)) 0 else None) with
          | Some i => component i serie
          | None => Ok serie_default
          end
        end
      end.
  Definition Components : decomposer :=
    mkDecomposer (fun d k ref name => ret (components_names d k ref name)) (fun d k name => lift (components_serie d k name)).

  (** ** Coordinates.cxx:36-58; [names_[i]] is undefined when there are not three names *)
  Definition coordinates_names (names_ : list string) (k : Z) (name : string) : list string :=
    if negb (k =? 1) || negb (String.eqb name "positions") then [] else names_.
  Fixpoint coordinates_loop (names_ : list string) (serie : Serie T) (name : string) (is : list Z) : outcome (Serie T) :=
    match is with
    | [] => Ok serie_default
    | i :: r => let* n := rd names_ i in
                if String.eqb name n then component i serie else coordinates_loop names_ serie name r
    end.
  Definition coordinates_serie (names_ : list string) (d : Dataframe T) (k : Z) (name : string) : outcome (Serie T) :=
    if k =? 1 then coordinates_loop names_ (df_get d "positions"%string) name (iota 3) else Ok serie_default.
  Definition Coordinates (names_ : list string) : decomposer :=
    mkDecomposer (fun _ k _ name => ret (coordinates_names names_ k name)) (fun d k name => lift (coordinates_serie names_ d k name)).

  (** ** EigenValues.cxx:33-83 and EigenVectors.cxx:33-83; they differ in the item sizes and in the function called *)
  Definition eigen_names (size2 size3 : Z) (k : Z) (s : Serie T) (name : string) : list string :=
    if String.eqb name "positions" || String.eqb name "indices" then []
    else if (dimension s =? 2) && (negb (itemSize s =? 3) || negb (k =? size2)) then []
    else if (dimension s =? 3) && (negb (itemSize s =? 6) || negb (k =? size3)) then []
    else if dimension s =? 2 then [name +++ "1"; name +++ "2"]%string
    else [name +++ "1"; name +++ "2"; name +++ "3"]%string.
  Definition eigen_serie (wanted : Z) (eigen : Serie T -> outcome (Serie T)) (d : Dataframe T) (k : Z) (name : string) : outcome (Serie T) :=
    if negb (k =? wanted) then Ok serie_default
    else
      let serie := df_get d (chop 1 name) in
      let* id := last_id name in
      if negb (isValid serie) then Ok serie_default
      else if (if dimension serie =? 2 then negb (itemSize serie =? 3) || (id <? 1) || (2 <? id)
               else negb (itemSize serie =? 6) || (id <? 1) || (3 <? id)) then Ok serie_default
      else let* e := eigen serie in component (id - 1) e.
  Definition EigenValues : decomposer :=
    mkDecomposer (fun _ k ref name => ret (eigen_names 1 1 k (snd ref) name)) (fun d k name => lift (eigen_serie 1 eigenValues d k name)).
  Definition EigenVectors : decomposer :=
    mkDecomposer (fun _ k ref name => ret (eigen_names 2 3 k (snd ref) name)) (fun d k name => lift (eigen_serie 3 eigenVectors d k name)).

  (** ** Normals.cxx:37-57, Areas.cxx:39-65, Valence.cxx:36-70: [names] differ in the item size only *)
  Definition mesh_names (size : Z) (name_ : string) (d : Dataframe T) (k : Z) : list string :=
    if negb (k =? size) then []
    else if negb (df_contains_name d "positions"%string) && negb (df_contains_name d "indices"%string) then []
    else [name_].
  Definition normals_serie (name_ : string) (d : Dataframe T) (k : Z) (name : string) : outcome (Serie T) :=
    if negb (String.eqb name name_) then Ok serie_default else normals (df_get d "positions"%string) (df_get d "indices"%string).
  Definition Normals (name_ : string) : decomposer :=
    mkDecomposer (fun d k _ _ => ret (mesh_names 3 name_ d k)) (fun d k name => lift (normals_serie name_ d k name)).
  (** Areas.cxx:51-65; [math::div(2, ...)]: the literal converts to [double], so the overload is [div(double, const Serie &)],
      unlike in [areas] (Geo.v), where the literal is the second argument *)
  Definition area_serie (name_ : string) (d : Dataframe T) (k : Z) (name : string) : outcome (Serie T) :=
    if negb (String.eqb name name_) then Ok serie_default
    else
      let* n := normals_serie "n"%string d 3 "n"%string in
      if isValid n then let* l := norm n in div_value (n_of_Z 2) l else Ok serie_default.
  Definition Area (name_ : string) : decomposer :=
    mkDecomposer (fun d k _ _ => ret (mesh_names 1 name_ d k)) (fun d k name => lift (area_serie name_ d k name)).
  (** [ids[t[j]]++]: the number is converted to [size_t] *)
  Definition count_corner (t : list T) (ids : list T) (j : Z) : outcome (list T) :=
    let* x := rd t j in let* i := n_to_u64 x in
    let* n := rd ids i in wr ids i (n [+] n_of_Z 1).
  (** Valence.cxx:63-67 *)
  Definition valence_step (t : list T) (_ : Z) : M (list T) unit := fun ids =>
    match foldO (count_corner t) [0; 1; 2] ids with
    | Ok ids' => (Ok tt, ids')
    | Throw e => (Throw e, ids)
    | UB => (UB, ids)
    end.
  Definition valence_serie (name_ : string) (d : Dataframe T) (k : Z) (name : string) : outcome (Serie T) :=
    if negb (String.eqb name name_) then Ok serie_default
    else
      let positions := df_get d "positions"%string in
      let indices := df_get d "indices"%string in
      if negb (isValid positions) || negb (isValid indices) then Ok serie_default
      else
        let '(r, ids) := forEach_v valence_step indices (createArray (count positions) (n_of_Z 0)) in
        let* _ := r in serie_of 1 ids 3.
  Definition Valence (name_ : string) : decomposer :=
    mkDecomposer (fun d k _ _ => ret (mesh_names 1 name_ d k)) (fun d k name => lift (valence_serie name_ d k name)).

  (** ** UserDefinedDecomposer.h:54-77.  [cb] runs the callback that [cb_] refers to. *)
  Definition UserDefined (itemSize_ : Z) (name_ : string) (cb : Dataframe T -> M St (Serie T)) : decomposer :=
    mkDecomposer
      (fun d k _ _ => if negb (k =? itemSize_) then ret [] else
         let! s := cb d in if isValid s then ret [name_] else ret [])
      (fun d k name => if negb (k =? itemSize_) || negb (String.eqb name_ name) then ret serie_default else cb d).
End Attributes.
Arguments decomposer T St : clear implicits.
