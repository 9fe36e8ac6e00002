(** The spin locks krw_mutex (reader preferring) and kwr_mutex (writer preferring), /repo/include/ksync.h:125-219.
    Any number of threads; one event is one shared-memory access (load, CAS, atomic add) of one thread.  Sequentially
    consistent memory: the words are volatile and only changed by __sync builtins (katom.h). *)
From Verif Require Import Lts SelMgrModel.
Local Open Scope Z_scope.

(** where a thread is.  The names of the C lines: *)
Inductive pc :=
| Idle
| RWait               (* kwr_mutex_rlock, ksync.h:189: while (try_write > 0) *)
| RLoop               (* krw_mutex_rlock, ksync.h:134: about to read x = *mutex *)
| RHave (x : Z)       (* ksync.h:140: about to CAS x -> x + 1 *)
| RIn                 (* holds the lock for reading *)
| WTry                (* kwr_mutex_wlock, ksync.h:197: about to test try_write != 0 *)
| WTryHave            (* ksync.h:201: about to CAS try_write 0 -> 1 *)
| WLoop               (* krw_mutex_wlock, ksync.h:151: about to test *mutex != 0 *)
| WHave               (* ksync.h:155: about to CAS 0 -> -1 *)
| WIn                 (* holds the lock for writing *)
| WOut.               (* kwr_mutex_wunlock, ksync.h:211: rw is released, try_write not yet *)
(** [rw]: the word rw (krw_mutex is just this word); [tw]: the word try_write; pcs: one entry per thread *)
Record st := St { rw : Z; tw : Z; pcs : list pc }.
Definition set_pc (s : st) (t : nat) (p : pc) : st := St (rw s) (tw s) (<[t := p]> (pcs s)).
Definition set_rw (s : st) (x : Z) : st := St x (tw s) (pcs s).
Definition set_tw (s : st) (x : Z) : st := St (rw s) x (pcs s).

(** [wr]: the lock is a kwr_mutex; otherwise a krw_mutex.
    BeginR: call of krw_mutex_rlock, or kwr_mutex_rlock with that high_priority; BeginW: call of wlock; Step: the next
    access of a thread inside rlock, wlock or wunlock; Leave: the call of runlock / wunlock (its first access) *)
Inductive ev := BeginR (t : nat) (high : bool) | BeginW (t : nat) | Step (t : nat) | Leave (t : nat).
Definition step (wr : bool) (s : st) (e : ev) : res st unit :=
  match e with
  | BeginR t high => match pcs s !! t with Some Idle => Ok (set_pc s t (if wr && negb high then RWait else RLoop)) () | _ => Disabled end
  | BeginW t => match pcs s !! t with Some Idle => Ok (set_pc s t (if wr then WTry else WLoop)) () | _ => Disabled end
  | Leave t =>
    match pcs s !! t with
    | Some RIn => Ok (set_pc (set_rw s (i32 (rw s - 1))) t Idle) ()  (* ksync.h:167 katom_dec; :217 *)
    | Some WIn => Ok (set_pc (set_rw s (i32 (rw s + 1))) t (if wr then WOut else Idle)) ()  (* ksync.h:163 katom_inc; :210 *)
    | _ => Disabled
    end
  | Step t =>
    match pcs s !! t with
    | Some RWait => Ok (if decide (tw s > 0) then s else set_pc s t RLoop) ()
    | Some RLoop => Ok (if decide (rw s < 0) then s else set_pc s t (RHave (rw s))) ()
    | Some (RHave x) => Ok (if decide (rw s = x) then set_pc (set_rw s (i32 (x + 1))) t RIn else set_pc s t RLoop) ()
    | Some WTry => Ok (if decide (tw s <> 0) then s else set_pc s t WTryHave) ()
    | Some WTryHave => Ok (if decide (tw s = 0) then set_pc (set_tw s 1) t WLoop else set_pc s t WTry) ()
    | Some WLoop => Ok (if decide (rw s <> 0) then s else set_pc s t WHave) ()
    | Some WHave => Ok (if decide (rw s = 0) then set_pc (set_rw s (-1)) t WIn else set_pc s t WLoop) ()
    | Some WOut => Ok (set_pc (set_tw s 0) t Idle) ()
    | _ => Disabled
    end
  end.
(** krw_mutex_init / kwr_mutex_init, ksync.h:127-130, 179-183, with n threads *)
Definition init (n : nat) : st := St 0 0 (replicate n Idle).
