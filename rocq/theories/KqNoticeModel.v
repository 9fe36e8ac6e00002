(** Model of the cross-thread notices of the kqueue selector: kqueue_selector_next, src/kkqueue_selector.c:92-110 (any thread),
    result_notice_event, 33-48 (the selector thread), the EVFILT_USER event of kqueue_selector_init, 71-86, and its way through
    kqueue_selector_select, 305-311 and the ready loop of kselector_check_timeout, src/kselector.c:238-268.

    One step = one critical section under notice_st.lock, one kevent call, or one callback.  Any number of threads may post, also
    the selector thread from inside a callback.  The notice selectable keeps STF_READ|STF_REV for ever and never has STF_ET (init, 81;
    selectable_read_event, src/kselectable.c:459-463, clears STF_READ only under STF_ET), so a trigger always reaches the callback with
    got = 0 (the buffer callback is NULL) and the flags carry no information: they are not in the state.  EV_CLEAR: the kernel's trigger
    is one bit, cleared when it is reported.  Simplified: kmutex operations and xmalloc succeed; [kevent] may fail ([QTrig t false],
    the code prints and goes on).  Notices live in a heap with explicit next pointers; xmalloc is any function giving a fresh address. *)
From Verif Require Export Lts NoticeModel.

(** the selector thread: elsewhere / at line 42 with [notice] / inside the callback of the notice at [a], [next] already read *)
Inductive qpc := QIdle | QWalk (notice : option positive) | QRun (a : positive) (next : option positive).
Record kqn := mkkqn {
  qheap : gmap positive node; qhead : option positive;
  qtr : bool;    (* the kernel's EVFILT_USER is triggered *)
  qrdy : bool;   (* the notice selectable is in the READY list *)
  qpc_ : qpc; qwriting : list nat; (* threads between unlock (105) and kevent (106) *)
  qposted : list nat; qran : list nat (* ghosts: ids, in order of posting and of running *) }.
Inductive qev :=
| QPush (t id : nat)         (* 94-105, thread t *)
| QTrig (t : nat) (ok : bool)(* 106-108 *)
| QSelect                    (* kevent reports the event: 305-311 *)
| QDetach                    (* ready loop takes the selectable: result_notice_event 37-40 *)
| QNext                      (* 41-43: one turn up to the call of the callback *)
| QReturn                    (* 44-45: the callback returned *)
| QEnd.                      (* 41: notice == NULL *)
Definition kqn_init : kqn := mkkqn ∅ None false false QIdle [] [] [].

Section M.
Context (alloc : nat -> gset positive -> positive).
Definition qstep (s : kqn) (e : qev) : res kqn nout :=
  match e with
  | QPush t id =>
    if decide (t ∈ qwriting s) then Disabled else
    let a := alloc id (dom (qheap s)) in
    Ok (mkkqn (<[a := mkn (qhead s) id]> (qheap s)) (Some a) (qtr s) (qrdy s) (qpc_ s) (t :: qwriting s) (qposted s ++ [id]) (qran s)) NNone
  | QTrig t ok =>
    if decide (t ∈ qwriting s) then
      Ok (mkkqn (qheap s) (qhead s) (ok || qtr s) (qrdy s) (qpc_ s) (remove1 t (qwriting s)) (qposted s) (qran s)) NNone
    else Disabled
  | QSelect =>
    match qpc_ s, qtr s with
    | QIdle, true => Ok (mkkqn (qheap s) (qhead s) false true QIdle (qwriting s) (qposted s) (qran s)) NNone
    | _, _ => Disabled
    end
  | QDetach =>
    match qpc_ s, qrdy s with
    | QIdle, true => Ok (mkkqn (qheap s) None (qtr s) false (QWalk (qhead s)) (qwriting s) (qposted s) (qran s)) NNone
    | _, _ => Disabled
    end
  | QNext =>
    match qpc_ s with
    | QWalk (Some a) =>
      match qheap s !! a with
      | None => Crash                          (* use after free *)
      | Some n => Ok (mkkqn (qheap s) (qhead s) (qtr s) (qrdy s) (QRun a (nnext n)) (qwriting s) (qposted s) (qran s ++ [nid n])) (NCall (nid n))
      end
    | _ => Disabled
    end
  | QReturn =>
    match qpc_ s with
    | QRun a next =>
      match qheap s !! a with
      | None => Crash                          (* double free *)
      | Some _ => Ok (mkkqn (delete a (qheap s)) (qhead s) (qtr s) (qrdy s) (QWalk next) (qwriting s) (qposted s) (qran s)) NNone
      end
    | _ => Disabled
    end
  | QEnd =>
    match qpc_ s with
    | QWalk None => Ok (mkkqn (qheap s) (qhead s) (qtr s) (qrdy s) QIdle (qwriting s) (qposted s) (qran s)) NNone
    | _ => Disabled
    end
  end.
End M.
