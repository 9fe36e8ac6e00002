(** Model of the cross-thread notice queue of a selector (include/kepoll_selector.h:18-50, used by the epoll
    selector's next(), src/kepoll_selector.c:53-60, 176-181).

    One step = one critical section under ast->lock, one eventfd system call, or one callback.  Any number
    of threads may post, also the selector thread from inside a callback.  Simplified: the eventfd counter
    is unbounded (the kernel's limit is 2^64-2 pending posts), read/write on it do not fail; xmalloc
    succeeds.  Notices live in a heap with explicit next pointers; xmalloc is any function giving a fresh address. *)
From Verif Require Export Lts.
From stdpp Require Export gmap.

(** kselector_notice: next, and the callback data summarised by an id *)
Record node := mkn { nnext : option positive; nid : nat }.
(** where the selector thread is in kepoll_notice_event: blocked in epoll / [value] callbacks still owed /
    inside the callback of the notice at address a, [value] more owed after it *)
Inductive spc := SIdle | SDrain (value : nat) | SRun (a : positive) (value : nat).
Record nq := mknq {
  heap : gmap positive node; head : option positive; ev : nat;
  pc : spc; writing : list nat (* threads that have pushed and not yet written the eventfd *);
  posted : list nat; ran : list nat (* ghosts: ids, in order of posting and of running *) }.

Inductive nev :=
| NPush (t id : nat)     (* kepoll_notice:33-43, thread t *)
| NWrite (t : nat)       (* kepoll_notice:44-47 *)
| NRead                  (* kepoll_notice_event:19-23, when epoll reports the eventfd readable *)
| NPop                   (* one turn 24-29 *)
| NReturn                (* 30-31: the callback returned *)
| NLoopEnd.              (* value = 0: back to epoll *)
Inductive nout := NNone | NCall (id : nat).

Definition nq_init : nq := mknq ∅ None 0 SIdle [] [] [].

Section M.
Context (alloc : nat -> gset positive -> positive).
Definition nstep (s : nq) (e : nev) : res nq nout :=
  match e with
  | NPush t id =>
    if decide (t ∈ writing s) then Disabled else
    let a := alloc id (dom (heap s)) in
    Ok (mknq (<[a := mkn (head s) id]> (heap s)) (Some a) (ev s) (pc s) (t :: writing s) (posted s ++ [id]) (ran s)) NNone
  | NWrite t =>
    if decide (t ∈ writing s) then
      Ok (mknq (heap s) (head s) (ev s + 1) (pc s) (remove1 t (writing s)) (posted s) (ran s)) NNone
    else Disabled
  | NRead =>
    match pc s, ev s with
    | SIdle, S v => Ok (mknq (heap s) (head s) 0 (SDrain (S v)) (writing s) (posted s) (ran s)) NNone
    | _, _ => Disabled
    end
  | NPop =>
    match pc s with
    | SDrain (S v) =>
      match head s with
      | None => Crash                          (* kassert(notice != NULL) *)
      | Some a => match heap s !! a with
        | None => Crash                        (* use after free *)
        | Some n => Ok (mknq (heap s) (nnext n) (ev s) (SRun a v) (writing s) (posted s) (ran s ++ [nid n])) (NCall (nid n))
        end
      end
    | _ => Disabled
    end
  | NReturn =>
    match pc s with
    | SRun a v => match heap s !! a with
      | None => Crash                          (* double free *)
      | Some _ => Ok (mknq (delete a (heap s)) (head s) (ev s) (SDrain v) (writing s) (posted s) (ran s)) NNone
      end
    | _ => Disabled
    end
  | NLoopEnd =>
    match pc s with
    | SDrain 0 => Ok (mknq (heap s) (head s) (ev s) SIdle (writing s) (posted s) (ran s)) NNone
    | _ => Disabled
    end
  end.
End M.
