(** Model of kfiber_mutex (include/kfiber_sync.h:19-25, 39-122; src/kfiber_sync.c:11-34).

    Every critical section under mutex->lock is one atomic step.  A fiber (or, for lock2, a callback request)
    is a number; the waiter chain is a list of them (newest first).  A waiter taken off the chain by unlock
    is "woken": its wake-up is a direct switch (same selector) or a posted event (other selector), both are
    the later step [Resume], after which lock has returned to it.  Since a posted event runs only in
    the fiber's own selector loop, i.e. after it has executed __kfiber_wait, the window between the unlock of
    mutex->lock and __kfiber_wait needs no step of its own.
    [asrt]: asserts compiled in (no NDEBUG). *)
From Verif Require Export Lts.
Local Open Scope Z_scope.

(** kfiber_sync.h:19-25 *)
Record fmutex := mkmx { waiter : list positive; count : Z; worker : Z; limit : Z }.
(** kfiber_sync.h:57-62 kfiber_mutex_init2 *)
Definition mutex_init (n : Z) : fmutex := mkmx [] 0 0 n.

Inductive lockres := Refused | Acquired | MustWait.
(** kfiber_sync.h:39-56 __kfiber_mutex_lock, up to the final unlock of mutex->lock *)
Definition lock_cs (m : fmutex) (f : positive) (max : Z) : fmutex * lockres :=
  if bool_decide (max > 0) && bool_decide (count m >= max) then (m, Refused)
  else let m := mkmx (waiter m) (count m + 1) (worker m) (limit m) in
    if bool_decide (worker m < limit m) then (mkmx (waiter m) (count m) (worker m + 1) (limit m), Acquired)
    else (mkmx (f :: waiter m) (count m) (worker m) (limit m), MustWait).
(** kfiber_sync.c:11-24 kfiber_mutex_lock2: Acquired posts the callback, MustWait enqueues it *)
Definition lock2_cs (m : fmutex) (f : positive) : fmutex * lockres :=
  if bool_decide (worker m < limit m) then (mkmx (waiter m) (count m) (worker m + 1) (limit m), Acquired)
  else (mkmx (f :: waiter m) (count m) (worker m) (limit m), MustWait).
(** kfiber_sync.h:107-122 kfiber_mutex_unlock: new state and the waiter to wake; None = failed assert *)
Definition unlock_cs (asrt : bool) (m : fmutex) : option (fmutex * option positive) :=
  if asrt && negb (bool_decide (count m > 0)) then None
  else let m := mkmx (waiter m) (count m - 1) (worker m) (limit m) in
    match waiter m with
    | [] => if asrt && negb (bool_decide (worker m > 0)) then None
            else Some (mkmx [] (count m) (worker m - 1) (limit m), None)
    | w :: ws => Some (mkmx ws (count m) (worker m) (limit m), Some w)
    end.
(** kfiber_sync.h:73-80 kfiber_mutex_set_limit *)
Definition set_limit_cs (m : fmutex) (n : Z) : fmutex :=
  mkmx (waiter m) (count m) (worker m) (if bool_decide (n < 1) then 1 else n).

(** The system: who is inside the lock ([holding]: between the return of lock and the call of unlock), and
    who was handed the lock but has not been resumed yet ([woken]). *)
Record sys := mksys { mx : fmutex; holding : list positive; woken : list positive }.
Definition sys_init (n : Z) : sys := mksys (mutex_init n) [] [].

(** [Lock f max]: fiber f calls kfiber_mutex_lock (max = 0) or kfiber_mutex_try_lock(max); [Lock2 f]: callback
    request f; [Unlock f]: a holder unlocks; [Resume f]: a woken one continues; [SetLimit n]. *)
Inductive ev := Lock (f : positive) (max : Z) | Lock2 (f : positive) | Unlock (f : positive)
              | Resume (f : positive) | SetLimit (n : Z).
Definition busy (s : sys) (f : positive) : Prop := f ∈ holding s ++ woken s ++ waiter (mx s).
#[global] Instance busy_dec s f : Decision (busy s f).
Proof. unfold busy. apply _. Defined.
Definition step (asrt : bool) (s : sys) (e : ev) : res sys (option lockres) :=
  match e with
  | Lock f max => if decide (busy s f) then Disabled else
      let '(m, r) := lock_cs (mx s) f max in
      Ok (mksys m (match r with Acquired => f :: holding s | _ => holding s end) (woken s)) (Some r)
  | Lock2 f => if decide (busy s f) then Disabled else
      let '(m, r) := lock2_cs (mx s) f in
      Ok (mksys m (holding s) (match r with Acquired => f :: woken s | _ => woken s end)) (Some r)
  | Unlock f => if decide (f ∈ holding s) then
      match unlock_cs asrt (mx s) with
      | None => Crash
      | Some (m, w) => Ok (mksys m (remove1 f (holding s)) (match w with None => woken s | Some w => w :: woken s end)) None
      end else Disabled
  | Resume f => if decide (f ∈ woken s) then Ok (mksys (mx s) (f :: holding s) (remove1 f (woken s))) None else Disabled
  | SetLimit n => Ok (mksys (set_limit_cs (mx s) n) (holding s) (woken s)) None
  end.

(** schedules without callback locks / without limit changes *)
Definition no_lock2 (e : ev) : Prop := match e with Lock2 _ => False | _ => True end.
Definition no_set (e : ev) : Prop := match e with SetLimit _ => False | _ => True end.
