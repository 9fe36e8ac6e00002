(** The worker pool of WorkerModel.v with kasync_worker_set (include/kasync_worker.h:29-33) at any moment.

    kasync_worker_set takes no lock and writes two ints one after the other: two steps, so submitters may see one new and one old
    limit.  Simplified: an int is read and written as a whole (the C code has a data race there). *)
From Verif Require Export WorkerModel.
Local Open Scope Z_scope.

Inductive lev :=
| LWork (e : wev)               (* everything else, WorkerModel.v *)
| LSetWorker (m : Z)            (* kasync_worker.h:31 *)
| LSetQueue (m : Z).            (* kasync_worker.h:32 *)
Definition set_limits (s : ws) (mw mq : Z) : ws :=
  mkws (heap s) (head s) (last s) mw mq (worker s) (queue s) (refs s) (alive s)
    (thr s) (ext s) (blocked s) (accepted s) (called s) (accn s) (takenn s) (frees s).
Section M.
Context (alloc : nat -> gset positive -> positive).
Definition lstep (s : ws) (e : lev) : res ws wout :=
  match e with
  | LWork e => wstep alloc s e
  | LSetWorker m => if negb (may_call s) then Disabled else if negb (alive s) then Crash else Ok (set_limits s m (max_queue s)) ONone
  | LSetQueue m => if negb (may_call s) then Disabled else if negb (alive s) then Crash else Ok (set_limits s (max_worker s) m) ONone
  end.
End M.
