(** Thread events: kcond, /repo/include/ksync.h:19-115 (the pthread version).  Every function is one critical section
    under cond->mutex, except that kcond_wait is split at pthread_cond_wait. *)
From Verif Require Import Lts.

Record st := St {
  auto : bool;          (* auto_reset *)
  ev : bool;            (* ev *)
  asleep : list nat;    (* threads blocked in pthread_cond_wait *)
  woken : list nat;     (* threads unblocked from it that have not yet re-acquired the mutex *)
  notices : nat;        (* ghost: number of kcond_notice calls so far *)
  rets : nat            (* ghost: number of returns of kcond_wait and of true results of kcond_try_wait *)
}.
Inductive evt :=
| Wait (t : nat) | TryWait (t : nat) | Reset
| Notice (c : option nat)   (* c: the waiter the OS picks for pthread_cond_signal *)
| Resume (t : nat)          (* a woken thread re-acquires the mutex and finishes kcond_wait *)
| Spurious (t : nat).       (* POSIX allows pthread_cond_wait to be unblocked without a signal *)
Inductive out := Returned | Blocked | TryOk | TryFail | Done.

Definition step (s : st) (e : evt) : res st out :=
  match e with
  | Wait t =>                                                              (* ksync.h:55-68 *)
    if decide (t ∈ asleep s ++ woken s) then Disabled
    else if ev s then Ok (St (auto s) false (asleep s) (woken s) (notices s) (S (rets s))) Returned
    else Ok (St (auto s) (ev s) (t :: asleep s) (woken s) (notices s) (rets s)) Blocked
  | Resume t =>                                                            (* ksync.h:66-70 *)
    if decide (t ∈ woken s) then Ok (St (auto s) (if auto s then false else ev s) (asleep s) (remove1 t (woken s)) (notices s) (S (rets s))) Returned
    else Disabled
  | TryWait t =>                                                           (* ksync.h:77-83 *)
    if decide (t ∈ asleep s ++ woken s) then Disabled
    else if ev s then Ok (St (auto s) false (asleep s) (woken s) (notices s) (S (rets s))) TryOk
    else Ok s TryFail
  | Notice c =>                                                            (* ksync.h:98-105 *)
    if auto s then
      match asleep s, c with
      | [], _ => Ok (St (auto s) true [] (woken s) (S (notices s)) (rets s)) Done
      | _ :: _, Some t => if decide (t ∈ asleep s) then Ok (St (auto s) true (remove1 t (asleep s)) (t :: woken s) (S (notices s)) (rets s)) Done else Disabled
      | _ :: _, None => Disabled
      end
    else Ok (St (auto s) true [] (asleep s ++ woken s) (S (notices s)) (rets s)) Done
  | Reset => Ok (St (auto s) false (asleep s) (woken s) (notices s) (rets s)) Done   (* ksync.h:46-49 *)
  | Spurious t => if decide (t ∈ asleep s) then Ok (St (auto s) (ev s) (remove1 t (asleep s)) (t :: woken s) (notices s) (rets s)) Done else Disabled
  end.
(** kcond_init, ksync.h:30-39 *)
Definition init (a : bool) : st := St a false [] [] 0 0.
