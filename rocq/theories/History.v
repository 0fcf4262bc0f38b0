(** * Histories of calls on Serie objects.

    A program holds Serie objects (named by their position in a list); each event is one public call of
    include/dataframe/Serie.h.  The mutable [asArray()] reference (Serie.h:96), through which a
    program can resize the storage behind the back of the Serie, is not among the events. *)
From Verif Require Import Base Num Serie.

Section History.
  Context {T : Type} `{Num T}.

  Definition heap : Type := list (Serie T).

  Inductive event : Type :=
  | ENew (itemSize count dim : Z)                 (* Serie x(itemSize, count, dim) *)
  | EDefault                                      (* Serie x; *)
  | EFrom (itemSize : Z) (values : list T) (dim : Z)  (* Serie x(itemSize, values, dim) *)
  | ECopy (src : nat)                             (* Serie x(src) *)
  | EClone (src : nat)                            (* Serie x(src.clone()) *)
  | EAssign (dst src : nat)                       (* dst = src *)
  | EReCount (o : nat) (c : Z)
  | ESet (o : nat) (i : Z) (v : list T)           (* o.set(i, v) *)
  | ESetValue (o : nat) (i : Z) (v : list T)
  | ESetD (o : nat) (i : Z) (x : T)               (* o.set(i, x) *)
  | ESetScalar (o : nat) (i : Z) (x : T).

  (** run [f] on object [o]; [None]: no such object, the program is not well formed *)
  Definition on (h : heap) (o : nat) (f : Serie T -> outcome heap) : option (outcome heap) :=
    match nth_error h o with
    | Some s => Some (f s)
    | None => None
    end.
  Definition put (h : heap) (o : nat) (s : outcome (Serie T)) : outcome heap :=
    let* s' := s in Ok (upd_nat h o s').
  Definition push (h : heap) (s : outcome (Serie T)) : outcome heap :=
    let* s' := s in Ok (h ++ [s']).

  Definition step (h : heap) (e : event) : option (outcome heap) :=
    match e with
    | ENew k n d => Some (push h (Ok (serie_n k n d)))
    | EDefault => Some (push h (Ok serie_default))
    | EFrom k vs d => Some (push h (serie_of k vs d))
    | ECopy o => on h o (fun s => push h (Ok (serie_copy s)))
    | EClone o => on h o (fun s => push h (clone s))
    | EAssign o o' => on h o' (fun s => match nth_error h o with
                                        | Some t => put h o (Ok (serie_assign t s))
                                        | None => UB end)
    | EReCount o c => on h o (fun s => put h o (Ok (reCount s c)))
    | ESet o i v => on h o (fun s => put h o (set_array s i v))
    | ESetValue o i v => on h o (fun s => put h o (setValue s i v))
    | ESetD o i x => on h o (fun s => put h o (set_double s i x))
    | ESetScalar o i x => on h o (fun s => put h o (setScalar s i x))
    end.

  (** Reachable heaps, with every call meeting [P].  A call that throws leaves the objects as they
      were; undefined behaviour has no continuation. *)
  Inductive reaches (P : heap -> event -> Prop) : heap -> list event -> heap -> Prop :=
  | r_nil : forall h, reaches P h [] h
  | r_ok : forall h e h1 es h2,
      P h e -> step h e = Some (Ok h1) -> reaches P h1 es h2 -> reaches P h (e :: es) h2
  | r_throw : forall h e x es h2,
      P h e -> step h e = Some (Throw x) -> reaches P h es h2 -> reaches P h (e :: es) h2.
End History.
Arguments event T : clear implicits.
Arguments heap T : clear implicits.
