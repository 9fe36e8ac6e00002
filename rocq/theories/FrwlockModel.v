(** Model of kfiber_rwlock (include/kfiber_sync.h:27-32, 132-205).
    Critical sections under mutex->lock are atomic steps ([sys] below).  kfiber_rwlock_wunlock wakes the waiting
    readers inside its critical section; what happens when such a wake-up switches directly to a
    reader on the same selector thread is the separate model [wunlock_sync] at the end. *)
From Verif Require Export Lts.
Local Open Scope Z_scope.

(** kfiber_sync.h:27-32; chains newest first *)
Record rwlock := mkrwl { rd_wait : list positive; wr_wait : list positive; cnt : Z }.
(** kfiber_sync.h:132-136 *)
Definition rwlock_init : rwlock := mkrwl [] [] 0.
(** kfiber_sync.h:138-152 kfiber_rwlock_rlock: true = acquired, false = waits *)
Definition rlock_cs (m : rwlock) (f : positive) : rwlock * bool :=
  if bool_decide (cnt m < 0) || negb (bool_decide (wr_wait m = [])) then (mkrwl (f :: rd_wait m) (wr_wait m) (cnt m), false)
  else (mkrwl (rd_wait m) (wr_wait m) (cnt m + 1), true).
(** kfiber_sync.h:153-166 kfiber_rwlock_wlock *)
Definition wlock_cs (m : rwlock) (f : positive) : rwlock * bool :=
  if bool_decide (cnt m <> 0) then (mkrwl (rd_wait m) (f :: wr_wait m) (cnt m), false)
  else (mkrwl (rd_wait m) (wr_wait m) (-1), true).
(** kfiber_sync.h:167-178 __kfiber_rwlock_try_wakeup_writer: the writer to wake *)
Definition try_wakeup_writer (m : rwlock) : rwlock * option positive :=
  match wr_wait m with
  | w :: ws => (mkrwl (rd_wait m) ws (-1), Some w)
  | [] => (m, None)
  end.
(** kfiber_sync.h:179-189 kfiber_rwlock_runlock; None = failed assert *)
Definition runlock_cs (m : rwlock) : option (rwlock * option positive) :=
  if bool_decide (cnt m > 0) then
    let m := mkrwl (rd_wait m) (wr_wait m) (cnt m - 1) in
    if bool_decide (cnt m = 0) then Some (try_wakeup_writer m) else Some (m, None)
  else None.
(** the while loop kfiber_sync.h:198-203: every waiter counted and woken, in chain order *)
Fixpoint wake_readers (ws : list positive) (c : Z) : Z * list positive :=
  match ws with [] => (c, []) | w :: ws => let '(c', l) := wake_readers ws (c + 1) in (c', w :: l) end.
(** kfiber_sync.h:190-207 kfiber_rwlock_wunlock: woken readers, woken writer *)
Definition wunlock_cs (m : rwlock) : option (rwlock * list positive * option positive) :=
  if bool_decide (cnt m = -1) then
    let m := mkrwl (rd_wait m) (wr_wait m) 0 in
    match rd_wait m with
    | [] => let '(m, w) := try_wakeup_writer m in Some (m, [], w)
    | rs => let '(c, l) := wake_readers rs (cnt m) in Some (mkrwl [] (wr_wait m) c, l, None)
    end
  else None.

(** system: fibers inside as readers / writers, and fibers woken but not yet resumed *)
Record sys := mksys { lk : rwlock; rin : list positive; win : list positive; rwk : list positive; wwk : list positive }.
Definition sys_init : sys := mksys rwlock_init [] [] [] [].
Inductive ev := RLock (f : positive) | WLock (f : positive) | RUnlock (f : positive) | WUnlock (f : positive) | Resume (f : positive).
Definition everybody (s : sys) : list positive :=
  rin s ++ win s ++ rwk s ++ wwk s ++ rd_wait (lk s) ++ wr_wait (lk s).
Definition opt_list {A} (o : option A) : list A := match o with None => [] | Some x => [x] end.
(** result of lock calls: got it at once? *)
Definition step (s : sys) (e : ev) : res sys (option bool) :=
  match e with
  | RLock f => if decide (f ∈ everybody s) then Disabled else
      let '(m, b) := rlock_cs (lk s) f in
      Ok (mksys m (if b then f :: rin s else rin s) (win s) (rwk s) (wwk s)) (Some b)
  | WLock f => if decide (f ∈ everybody s) then Disabled else
      let '(m, b) := wlock_cs (lk s) f in
      Ok (mksys m (rin s) (if b then f :: win s else win s) (rwk s) (wwk s)) (Some b)
  | RUnlock f => if decide (f ∈ rin s) then
      match runlock_cs (lk s) with
      | None => Crash
      | Some (m, w) => Ok (mksys m (remove1 f (rin s)) (win s) (rwk s) (opt_list w ++ wwk s)) None
      end else Disabled
  | WUnlock f => if decide (f ∈ win s) then
      match wunlock_cs (lk s) with
      | None => Crash
      | Some (m, rs, w) => Ok (mksys m (rin s) (remove1 f (win s)) (rs ++ rwk s) (opt_list w ++ wwk s)) None
      end else Disabled
  | Resume f =>
      if decide (f ∈ rwk s) then Ok (mksys (lk s) (f :: rin s) (win s) (remove1 f (rwk s)) (wwk s)) None
      else if decide (f ∈ wwk s) then Ok (mksys (lk s) (rin s) (f :: win s) (rwk s) (remove1 f (wwk s))) None
      else Disabled
  end.

(** ** C16: kfiber_rwlock_wunlock with readers on the unlocker's own selector thread.
    kfiber_wakeup_ts (include/kfiber.h:84-90) switches directly to such a reader, which runs until it suspends
    or exits; mutex->lock is a plain (non-recursive) pthread mutex (include/kmutex usage: kmutex_init(&lock,
    NULL)) and is still held.  An action of the resumed reader is either an operation on this rwlock,
    which first locks mutex->lock, or something else. *)
Inductive action := LockOp | Other.
Record reader := mkreader { same_thread : bool; until_suspend : list action }.
Inductive outcome := Finished (cnt : Z) | SelfDeadlock.
Fixpoint run_reader (kmutex_held : bool) (acts : list action) : bool :=
  match acts with
  | [] => true
  | LockOp :: acts => if kmutex_held then false else run_reader kmutex_held acts
  | Other :: acts => run_reader kmutex_held acts
  end.
Fixpoint wunlock_sync (rs : list reader) (c : Z) : outcome :=
  match rs with
  | [] => Finished c
  | r :: rs => if same_thread r && negb (run_reader true (until_suspend r)) then SelfDeadlock
               else wunlock_sync rs (c + 1)
  end.
