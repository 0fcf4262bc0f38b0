(** * parallel_execute applied to a memoized functor. *)
From Verif Require Import Base Num Serie Functional Utils Exec.
Open Scope Z_scope.

Section MemoParallel.
  Context {T : Type} `{Num T} {J : Type} (init : Serie T -> J) (step : J -> J + outcome (Serie T)).

  (** memoize.h:36-45 as a computation in steps: the answer is known at once, or the wrapped function has to run *)
  Definition memo_state : Type := outcome (Serie T) + J.
  Definition memo_init (c : Cache (T := T)) (s : Serie T) : memo_state :=
    match make_key s with
    | Throw e => inl (Throw e)
    | UB => inl UB
    | Ok key =>
        if swo_on klt (key :: map fst c) then
          match cache_find key c with
          | Some r => inl (Ok (serie_copy r))
          | None => inr (init s)
          end
        else inl UB
    end.
  Definition memo_step (m : memo_state) : memo_state + outcome (Serie T) :=
    match m with
    | inl o => inr o
    | inr j => match step j with inl j' => inl (inr j') | inr o => inr o end
    end.

  (** parallel_execute.h:63-128 called on a [Memoized] with the cache [c].  With more than one core every job works on a copy of the
      functor, cache included (the capture [fct] of parallel_execute.h:94), made before any job starts and thrown away with the job.
      Simplification: the copy of the cache is the cache itself (the copy constructor of Serie changes no member). *)
  Definition memo_parallel (c : Cache) (sched : list nat) (serie : Serie T) (nbCores : Z) : option (outcome (Serie T)) :=
    parallel_execute (memo_init c) memo_step sched serie nbCores.

  (** the cache of the caller's functor afterwards: it is called itself for one core only (parallel_execute.h:71-73).  [o] is
      what the wrapped function delivers. *)
  Definition memo_cache_after (c : Cache) (serie : Serie T) (nbCores : Z) (o : outcome (Serie T)) : Cache :=
    if nbCores =? 1 then snd (snd (memo_call (St := unit) (fun _ => lift o) serie (tt, c))) else c.

  (** the parts for which the wrapped function runs *)
  Definition runs (c : Cache) (p : Serie T) : bool := match memo_init c p with inl _ => false | inr _ => true end.
  Definition computed_parts (c : Cache) (serie : Serie T) (nbCores : Z) : outcome (list (Serie T)) :=
    if nbCores =? 1 then Ok (filter (runs c) [serie])
    else let* parts := partition_n nbCores serie in Ok (filter (runs c) parts).
End MemoParallel.
