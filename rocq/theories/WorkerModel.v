(** Model of the worker pool src/kasync_worker.c (and include/kasync_worker.h:20-32).

    One step = one critical section under worker->lock, one callback start / end, or one atomic change of
    refs.  Queue cells live in a heap with explicit next pointers; xmalloc is any function giving a fresh
    address.  Thread starts ([kthread_pool_start], own model in C50) succeed or fail as the event says.
    kasync_worker_start's wait for its kcond (semantics in C46) is the list [blocked] of cells whose submitter waits.
    int fields are unbounded integers.  The limits are fixed here; kasync_worker_set during operation is added in WsetModel.v. *)
From Verif Require Export Lts.
From stdpp Require Export gmap.
Local Open Scope Z_scope.

(** kasync_worker_param; phigh is ghost (the flag of the submitting call) *)
Record param := mkp { pnext : option positive; pjob : nat; pwait : bool; phigh : bool }.
(** where a worker thread is: top of the loop / popped cell a / inside rq->cb / after the loop, before release / gone *)
Inductive wpc := WLoop | WRun (a : positive) (j : nat) | WCb (a : positive) (j : nat) | WRel | WGone.
Record ws := mkws {
  heap : gmap positive param; head : option positive; last : option positive;
  max_worker : Z; max_queue : Z; worker : Z; queue : Z; refs : Z; alive : bool;
  thr : list wpc;
  ext : nat;                        (* ghost: references held by owners *)
  blocked : list positive;          (* submitters waiting in kasync_worker_start *)
  accepted : list nat; called : list nat;   (* ghosts: jobs accepted; jobs whose callback was called, in order *)
  accn : list nat; takenn : list nat;       (* ghosts: normal (not high) jobs accepted / dequeued, in order *)
  frees : nat }.                            (* ghost: how often the object was freed *)

Inductive wev :=
| WTry (j : nat) (high ok : bool)   (* kasync_worker_try_start; ok: the thread start, if tried, succeeds *)
| WStart (j : nat) (ok : bool)      (* kasync_worker_start up to its wait *)
| WRef | WRelease                   (* an owner takes / drops a reference *)
| WTake (t : nat)                   (* worker thread: the critical section 36-47 *)
| WCall (t : nat)                   (* 55-58: kcond_notice, callback starts *)
| WDone (t : nat)                   (* 59: callback returned, cell freed *)
| WFin (t : nat).                   (* 61: kasync_worker_release by the thread *)
Inductive wout := ONone | OBool (b : bool) | OCall (j : nat).

Definition ws_init (mw mq : Z) : ws :=
  mkws ∅ None None mw mq 0 0 1 true [] 1 [] [] [] [] [] 0.

(** kasync_worker_release: 20-26 *)
Definition release (s : ws) : ws :=
  let r := refs s - 1 in
  let z := bool_decide (r = 0) in
  mkws (heap s) (head s) (last s) (max_worker s) (max_queue s) (worker s) (queue s) r (alive s && negb z)
    (thr s) (ext s) (blocked s) (accepted s) (called s) (accn s) (takenn s) (if z then S (frees s) else frees s).
Definition set_thr (s : ws) (l : list wpc) : ws :=
  mkws (heap s) (head s) (last s) (max_worker s) (max_queue s) (worker s) (queue s) (refs s) (alive s)
    l (ext s) (blocked s) (accepted s) (called s) (accn s) (takenn s) (frees s).
Definition set_ext (s : ws) (n : nat) : ws :=
  mkws (heap s) (head s) (last s) (max_worker s) (max_queue s) (worker s) (queue s) (refs s) (alive s)
    (thr s) n (blocked s) (accepted s) (called s) (accn s) (takenn s) (frees s).
Definition set_refs (s : ws) (n : Z) : ws :=
  mkws (heap s) (head s) (last s) (max_worker s) (max_queue s) (worker s) (queue s) n (alive s)
    (thr s) (ext s) (blocked s) (accepted s) (called s) (accn s) (takenn s) (frees s).
Definition set_worker (s : ws) (n : Z) : ws :=
  mkws (heap s) (head s) (last s) (max_worker s) (max_queue s) n (queue s) (refs s) (alive s)
    (thr s) (ext s) (blocked s) (accepted s) (called s) (accn s) (takenn s) (frees s).
Definition set_q (s : ws) (h : gmap positive param) (hd lt : option positive) (q : Z) : ws :=
  mkws h hd lt (max_worker s) (max_queue s) (worker s) q (refs s) (alive s)
    (thr s) (ext s) (blocked s) (accepted s) (called s) (accn s) (takenn s) (frees s).
Definition set_blocked (s : ws) (l : list positive) : ws :=
  mkws (heap s) (head s) (last s) (max_worker s) (max_queue s) (worker s) (queue s) (refs s) (alive s)
    (thr s) (ext s) l (accepted s) (called s) (accn s) (takenn s) (frees s).
Definition log_accept (s : ws) (j : nat) (high : bool) : ws :=
  mkws (heap s) (head s) (last s) (max_worker s) (max_queue s) (worker s) (queue s) (refs s) (alive s)
    (thr s) (ext s) (blocked s) (accepted s ++ [j]) (called s) (if high then accn s else accn s ++ [j]) (takenn s) (frees s).
Definition log_take (s : ws) (j : nat) (high : bool) : ws :=
  mkws (heap s) (head s) (last s) (max_worker s) (max_queue s) (worker s) (queue s) (refs s) (alive s)
    (thr s) (ext s) (blocked s) (accepted s) (called s) (accn s) (if high then takenn s else takenn s ++ [j]) (frees s).
Definition log_call (s : ws) (j : nat) : ws :=
  mkws (heap s) (head s) (last s) (max_worker s) (max_queue s) (worker s) (queue s) (refs s) (alive s)
    (thr s) (ext s) (blocked s) (accepted s) (called s ++ [j]) (accn s) (takenn s) (frees s).
Definition w_next (n : option positive) (p : param) : param := mkp n (pjob p) (pwait p) (phigh p).

(** 90-104: linking the cell a (already in the heap with next = NULL); None: kassert / bad pointer *)
Definition enqueue (s : ws) (a : positive) (high : bool) : option ws :=
  match last s with
  | None => match head s with None => Some (set_q s (heap s) (Some a) (Some a) (queue s + 1)) | Some _ => None end
  | Some l =>
    if high then p ← heap s !! a; Some (set_q s (<[a := w_next (head s) p]> (heap s)) (Some a) (last s) (queue s + 1))
    else p ← heap s !! l; Some (set_q s (<[l := w_next (Some a) p]> (heap s)) (head s) (Some a) (queue s + 1))
  end.
(** 105-115.  A failed thread start executes "worker--", which decrements the local pointer, and then releases through it:
    undefined behaviour *)
Definition spawn (s : ws) (ok : bool) : option ws :=
  if decide (worker s >= max_worker s) then Some s else
  if ok then Some (set_thr (set_refs (set_worker s (worker s + 1)) (refs s + 1)) (thr s ++ [WLoop])) else None.

Definition in_cb (s : ws) : bool := existsb (λ p, match p with WCb _ _ => true | _ => false end) (thr s).
(** whoever calls into the worker holds a reference or runs in one of its callbacks *)
Definition may_call (s : ws) : bool := negb (bool_decide (ext s = 0%nat)) || in_cb s.

Section M.
Context (alloc : nat -> gset positive -> positive).
Definition add (s : ws) (j : nat) (wait high ok : bool) : res ws wout :=
  let a := alloc j (dom (heap s)) in
  let s := set_q s (<[a := mkp None j wait high]> (heap s)) (head s) (last s) (queue s) in
  match enqueue s a high ≫= (λ s, spawn s ok) with
  | None => Crash
  | Some s => Ok (log_accept (if wait then set_blocked s (a :: blocked s) else s) j high) (OBool true)
  end.
(** the test of 120 and 152 *)
Definition over (s : ws) : bool := bool_decide (max_queue s > 0) && bool_decide (queue s > max_queue s).

Definition wstep (s : ws) (e : wev) : res ws wout :=
  match e with
  | WTry j high ok =>                                              (* 117-134 *)
    if negb (may_call s) then Disabled else if negb (alive s) then Crash else
    if over s then Ok s (OBool false) else add s j false high ok
  | WStart j ok =>                                                 (* 142-157 *)
    if negb (may_call s) then Disabled else if negb (alive s) then Crash else add s j (over s) false ok
  | WRef =>                                                        (* 16-19 *)
    if negb (may_call s) then Disabled else if negb (alive s) then Crash else
    Ok (set_refs (set_ext s (S (ext s))) (refs s + 1)) ONone
  | WRelease =>                                                    (* 20-26 *)
    match ext s with O => Disabled | S n => if negb (alive s) then Crash else Ok (release (set_ext s n)) ONone end
  | WTake t =>                                                     (* 35-47 *)
    match thr s !! t with
    | Some WLoop =>
      if negb (alive s) then Crash else
      match head s with
      | None => Ok (set_thr (set_worker s (worker s - 1)) (<[t := WRel]> (thr s))) ONone
      | Some a => match heap s !! a with
        | None => Crash
        | Some p =>
          let s := set_q s (heap s) (pnext p) (match pnext p with None => None | _ => last s end) (queue s - 1) in
          Ok (log_take (set_thr s (<[t := WRun a (pjob p)]> (thr s))) (pjob p) (phigh p)) ONone
        end
      end
    | _ => Disabled
    end
  | WCall t =>                                                     (* 55-58 *)
    match thr s !! t with
    | Some (WRun a j) => match heap s !! a with
      | None => Crash
      | Some p =>
        let s := if pwait p then set_blocked s (remove1 a (blocked s)) else s in
        Ok (log_call (set_thr s (<[t := WCb a j]> (thr s))) (pjob p)) (OCall (pjob p))
      end
    | _ => Disabled
    end
  | WDone t =>                                                     (* 59 *)
    match thr s !! t with
    | Some (WCb a j) => match heap s !! a with
      | None => Crash
      | Some p => Ok (set_thr (set_q s (delete a (heap s)) (head s) (last s) (queue s)) (<[t := WLoop]> (thr s))) ONone
      end
    | _ => Disabled
    end
  | WFin t =>                                                      (* 61 *)
    match thr s !! t with
    | Some WRel => if negb (alive s) then Crash else Ok (release (set_thr s (<[t := WGone]> (thr s)))) ONone
    | _ => Disabled
    end
  end.
End M.
