(** * unitTest/assertions.h: the assertions of the unit tests. *)
From Verif Require Import Base Num Serie.
Open Scope Z_scope.

Section Assertions.
  Context {T : Type} `{Num T}.

  (** [Ok true]: the assertion returns; [Ok false]: it ends the test program with [exit(-1)].  What is written to the streams is
      left out. *)

  (** assertions.h:38-52 *)
  Definition assertCondition (cond : bool) : outcome bool := Ok (if negb cond then false else true).
  (** assertions.h:54-62, for integers *)
  Definition assertEqual (a b : Z) : outcome bool := Ok (if negb (a =? b) then false else true).
  (** assertions.h:64-71.  [a > b] of doubles is [b < a]. *)
  Definition assertDoubleEqual (a b tol : T) : outcome bool :=
    Ok (if n_ltb tol (n_abs (n_sub a b)) then false else true).
  (** assertions.h:73-89.  Arrays of fewer than 2^32 numbers, so that the counter does not wrap. *)
  Definition assertArrayEqual (serie array : list T) (tol : T) : outcome bool :=
    if negb (len serie =? len array) then Ok false
    else
      foldO (fun (going : bool) i =>
               if going then
                 let* x := rd serie i in
                 let* y := rd array i in
                 Ok (if n_ltb tol (n_abs (n_sub x y)) then false else true)
               else Ok false) (iota (len serie)) true.
  (** assertions.h:91-94 *)
  Definition assertSerieEqual_array (s1 : Serie T) (s2 : list T) (tol : T) : outcome bool := assertArrayEqual (asArray s1) s2 tol.
  (** one assertion after the other, while none has ended the program *)
  Definition and_then (a b : outcome bool) : outcome bool := let* ok := a in if ok then b else Ok false.
  (** assertions.h:96-103.  98, 99 convert to [int]. *)
  Definition assertSerieEqual (s1 s2 : Serie T) (tol : T) : outcome bool :=
    and_then (assertEqual (s32 (itemSize s1)) (s32 (itemSize s2)))
   (and_then (assertEqual (s32 (dimension s1)) (s32 (dimension s2)))
   (and_then (assertEqual (count s1) (count s2))
   (and_then (assertEqual (size s1) (size s2))
             (assertArrayEqual (asArray s1) (asArray s2) tol)))).

  (** assertions.h:105-119: another exception leaves the assertion *)
  Definition shouldThrowError {A} (cb : outcome A) : outcome bool :=
    match cb with
    | Ok _ => Ok false
    | Throw InvalidArgument => Ok true
    | Throw e => Throw e
    | UB => UB
    end.
  (** assertions.h:121-133 *)
  Definition shouldNotThrowError {A} (cb : outcome A) : outcome bool :=
    match cb with
    | Ok _ => Ok true
    | Throw InvalidArgument => Ok false
    | Throw e => Throw e
    | UB => UB
    end.
End Assertions.
