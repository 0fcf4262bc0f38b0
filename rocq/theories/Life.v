(** * Lifetimes: the decomposers owned by a Manager, and the callback of a UserDefinedDecomposer

    src/attributes/Manager.cxx:33-57, include/dataframe/attributes/{Manager,Decomposer,UserDefinedDecomposer}.h *)
From Verif Require Import Base Num Serie Dataframe Attributes.
From Coq Require String.
Open Scope Z_scope.

(** ** Manager *)
(** dynamic class of a decomposer object: [Decomposer] itself, or one derived from it.  Decomposer.h:36-41 declares virtual
    functions but no virtual destructor. *)
Inductive dclass := Base | Derived.
Record object : Type := mkObject { o_class : dclass; o_alive : bool }.
(** [objects]: the decomposers created so far, the address of the n-th is n; [managers]: [ds_] of the Managers created so far,
    [None] once destroyed; [released]: the addresses deleted so far, in order *)
Record world : Type := mkWorld { objects : list object; managers : list (option (list nat)); released : list nat }.
Definition world0 : world := mkWorld [] [] [].

Inductive event :=
| ENew (c : dclass)                (** [new Decomposer()] or [new Normals()], ... *)
| EManager (ds : list nat)         (** [Manager(df, ds)] *)
| EAdd (m d : nat)                 (** [m.add(d)] *)
| EClear (m : nat)                 (** [m.clear()] *)
| ENames (m : nat)                 (** [m.names(k)] over a Dataframe with at least one Serie: calls every decomposer *)
| ECopy (m : nat)                  (** [Manager(m)]: the implicit copy constructor copies [ds_] *)
| EDestroy (m : nat).              (** the end of the life of [m] *)

Definition get_manager (w : world) (m : nat) : outcome (list nat) :=
  match nth_error (managers w) m with Some (Some ds) => Ok ds | _ => UB end.
Definition set_manager (w : world) (m : nat) (ds : option (list nat)) : world :=
  mkWorld (objects w) (upd_nat (managers w) m ds) (released w).
(** [d->names(...)] *)
Definition touch (w : world) (d : nat) : outcome unit :=
  match nth_error (objects w) d with Some o => if o_alive o then Ok tt else UB | None => UB end.
(** [delete d] with [d] a [Decomposer *]: undefined when the object is gone, and when its dynamic class is not Decomposer, since
    the destructor is not virtual ([expr.delete]) *)
Definition release (w : world) (d : nat) : outcome world :=
  match nth_error (objects w) d with
  | Some (mkObject Base true) => Ok (mkWorld (upd_nat (objects w) d (mkObject Base false)) (managers w) (released w ++ [d]))
  | _ => UB
  end.

Definition lstep (w : world) (e : event) : outcome world :=
  match e with
  | ENew c => Ok (mkWorld (objects w ++ [mkObject c true]) (managers w) (released w))
  (** Manager.cxx:33-40 *)
  | EManager ds => Ok (mkWorld (objects w) (managers w ++ [Some ds]) (released w))
  (** Manager.cxx:49-52 *)
  | EAdd m d => let* ds := get_manager w m in Ok (set_manager w m (Some (ds ++ [d])))
  (** Manager.cxx:54-57: the pointers are forgotten, the objects are not deleted *)
  | EClear m => let* ds := get_manager w m in Ok (set_manager w m (Some []))
  (** Manager.cxx:85-114 *)
  | ENames m => let* ds := get_manager w m in let* _ := foldO (fun _ d => touch w d) ds tt in Ok w
  | ECopy m => let* ds := get_manager w m in Ok (mkWorld (objects w) (managers w ++ [Some ds]) (released w))
  (** Manager.cxx:42-47 *)
  | EDestroy m => let* ds := get_manager w m in let* w' := foldO release ds w in Ok (set_manager w' m None)
  end.
Definition lrun (es : list event) (w : world) : outcome world := foldO lstep es w.

(** ** UserDefinedDecomposer *)
Section UserDefined.
  Context {T : Type} `{Num T} {St : Type}.
  Definition callback : Type := Dataframe T -> M St (Serie T).
  (** the function objects; [None] once destroyed *)
  Definition closures : Type := list (option callback).

  (** UserDefinedDecomposer.h:41-44: the callback is held by reference ([F &&cb_]), that is, by address *)
  Record user_defined : Type := mkUser { u_itemSize : Z; u_name : string; u_cb : nat }.
  (** calling through the reference *)
  Definition call_cb (h : closures) (a : nat) : callback :=
    fun d => match nth_error h a with Some (Some f) => f d | _ => lift UB end.
  (** the decomposer as it behaves while the function objects are those of [h] *)
  Definition user_decomposer (h : closures) (u : user_defined) : decomposer T St :=
    UserDefined (u_itemSize u) (u_name u) (call_cb h (u_cb u)).

  (** [new UserDefinedDecomposer(k, name, [..](const Dataframe &) {..})]: the function object is a temporary; it is destroyed at
      the end of the full expression, the reference remains *)
  Definition new_from_temporary (h : closures) (k : Z) (name : string) (f : callback) : closures * user_defined :=
    let a := length h in
    let during := h ++ [Some f] in
    let u := mkUser k name a in
    (upd_nat during a None, u).
  (** [auto f = ...; new UserDefinedDecomposer(k, name, std::move(f))]: [f] lives as long as its scope *)
  Definition new_from_variable (h : closures) (k : Z) (name : string) (f : callback) : closures * user_defined :=
    (h ++ [Some f], mkUser k name (length h)).
End UserDefined.
