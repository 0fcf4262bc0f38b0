(** * include/dataframe/functional/utils: memoize and parallel_execute. *)
From Verif Require Import Base Num Serie Functional Utils.

(** ** memoize *)
Section Memoize.
  Context {T : Type} `{Num T}.

  (** memoize.h:54-65 *)
  Definition make_key (s : Serie T) : outcome (list T) :=
    foldO (fun key i =>
             if itemSize s =? 1 then let* x := get_double s i in Ok (key ++ [x])
             else let* v := get_array s i in Ok (key ++ v))
          (iota (count s)) [].

  (** [operator<] of [std::vector<double>], the order of the [std::map] (memoize.h:51).  In C++20 it comes from [<=>]: the
      first components that are not equal decide; unordered ones (NaN) make it false. *)
  Fixpoint klt (a b : list T) : bool :=
    match a, b with
    | _, [] => false
    | [], _ :: _ => true
    | x :: a', y :: b' => if n_eqb x y then klt a' b' else n_ltb x y
    end.
  Definition kequiv (a b : list T) : bool := incomparable klt a b.

  (** The map: keys with their values, in order of insertion.  The keys of a [std::map] are pairwise inequivalent, so the order
      does not matter to look-ups. *)
  Definition Cache : Type := list (list T * Serie T).
  Definition cache_find (key : list T) (c : Cache) : option (Serie T) :=
    option_map snd (find (fun e => kequiv key (fst e)) c).

  (** memoize.h:36-45.  The wrapped function works on its own state; it does not reach the cache.  Behaviour is
      undefined when the keys are not strictly weakly ordered (NaN).  [cache[key] = result] default-constructs the Serie and
      assigns it. *)
  Definition memo_call {St} (f : Serie T -> M St (Serie T)) (s : Serie T) : M (St * Cache) (Serie T) :=
    fun stc =>
      match make_key s with
      | Throw e => (Throw e, stc)
      | UB => (UB, stc)
      | Ok key =>
          if swo_on klt (key :: map fst (snd stc)) then
            match cache_find key (snd stc) with
            | Some r => (Ok (serie_copy r), stc)
            | None =>
                match f s (fst stc) with
                | (Ok result, st') => (Ok result, (st', snd stc ++ [(key, serie_assign serie_default result)]))
                | (Throw e, st') => (Throw e, (st', snd stc))
                | (UB, st') => (UB, (st', snd stc))
                end
            end
          else (UB, stc)
      end.
  (** memoize.h:47 *)
  Definition memo_clear {St} (stc : St * Cache) : St * Cache := (fst stc, []).
End Memoize.

(** ** parallel_execute *)
Section Parallel.
  Context {T : Type} `{Num T}.

  (** A functor without shared state: called on a Serie it starts a computation in state [init s] that goes on step by step
      until it delivers an outcome.  The jobs run on copies of the functor (parallel_execute.h:94-95), so each has its own state. *)
  Context {J : Type} (init : Serie T -> J) (step : J -> J + outcome (Serie T)).

  (** derived from [std::exception]: all exceptions of /repo; of the user's, those with a tag >= 0 *)
  Definition std_exn (e : exn) : bool := match e with UserExn tag => 0 <=? tag | _ => true end.

  (** parallel_execute.h:95-106: what the job makes of the outcome of the functor *)
  Definition job_result (partition : Serie T) (o : outcome (Serie T)) : outcome (Serie T) :=
    match o with
    | Ok result => if count result =? count partition then Ok result else Throw InvalidArgument
    | Throw e => if std_exn e then Throw InvalidArgument else Throw e
    | UB => UB
    end.

  Inductive thread : Type :=
  | Running (partition : Serie T) (j : J)
  | Done (o : outcome (Serie T)).
  Definition thread_step (t : thread) : thread :=
    match t with
    | Running p j => match step j with inl j' => Running p j' | inr o => Done (job_result p o) end
    | Done o => Done o
    end.
  Definition launch (p : Serie T) : thread := Running p (init p).

  (** a schedule names the thread that makes the next step; threads that have finished do nothing *)
  Fixpoint step_at (ts : list thread) (i : nat) : list thread :=
    match ts, i with
    | [], _ => []
    | t :: r, O => thread_step t :: r
    | t :: r, S i' => t :: step_at r i'
    end.
  Definition run_schedule (sched : list nat) (ts : list thread) : list thread := fold_left step_at sched ts.

  Definition finished (ts : list thread) : option (list (outcome (Serie T))) :=
    fold_right (fun t acc => match t, acc with Done o, Some l => Some (o :: l) | _, _ => None end) (Some []) ts.

  (** parallel_execute.h:109-115: the futures are read in order; the first exception leaves the function once all
      jobs have ended (destructor of the futures of [std::async]).  Undefined behaviour of any job is that of the program. *)
  Definition is_UB {A} (o : outcome A) : bool := match o with UB => true | _ => false end.
  Definition gather (os : list (outcome (Serie T))) : outcome (list (Serie T)) :=
    if existsb is_UB os then UB else mapO (fun o => o) os.

  (** parallel_execute.h:63-128 under a given schedule; [None] when the schedule ends before all jobs have.  The single-core call
      runs the functor in the calling thread: [step] is iterated as often as the schedule has entries. *)
  Fixpoint run_alone (fuel : nat) (j : J) : option (outcome (Serie T)) :=
    match fuel with
    | O => None
    | S n => match step j with inl j' => run_alone n j' | inr o => Some o end
    end.
  Definition finish (serie : Serie T) (os : list (outcome (Serie T))) : outcome (Serie T) :=
    let* results := gather os in
    if negb (u64 (fold_right Z.add 0 (map count results)) =? count serie) then Throw RuntimeError
    else concat_series results.
  Definition parallel_execute (sched : list nat) (serie : Serie T) (nbCores : Z) : option (outcome (Serie T)) :=
    if nbCores <? 1 then Some (Throw InvalidArgument)
    else if nbCores =? 1 then run_alone (length sched) (init serie)
    else
      match partition_n nbCores serie with
      | Ok partitions =>
          option_map (finish serie) (finished (run_schedule sched (map launch partitions)))
      | Throw e => Some (Throw e)
      | UB => Some UB
      end.
End Parallel.
