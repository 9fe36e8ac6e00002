(** kfiber_thread_call (src/kfiber.c:625-647): a fiber has a blocking function run by a pool thread and sleeps until it has
    returned.  Modelled with _kfiber_worker_thread (625-630), kfiber_wakeup2 (211-217) and kfiber_result_callback (204-208).

    Any number of selectors (one thread each), fibers and pool threads; one step = one atomic action of one thread.  The pool
    is C50 (a started job is begun once by one pool thread, at any later time), the cross-thread notice queue is C30/C31 (a
    posted notice is delivered once, here in any order).  The fiber switch is C23: a selector runs at most one fiber; other
    reasons to suspend and resume are the events Yield and Resume. *)
From stdpp Require Export gmap.
From Verif Require Export Lts.
Local Open Scope Z_scope.

(** FIdle: suspended (or new) for another reason; FCalling k: its call k is behind kthread_pool_start, before __kfiber_wait;
    FWait k: suspended in call k *)
Inductive fst := FIdle | FRun | FCalling (k : nat) | FWait (k : nat).
Global Instance fst_eq_dec : EqDecision fst.
Proof. solve_decision. Defined.
(** kfiber (include/kfiber_internal.h): base.selector, start, arg, retval *)
Record fib := Fib { f_st : fst; f_sel : nat; f_start : nat; f_arg : nat; f_ret : Z }.

(** Made k f w fn a c: fiber f of selector w makes its call k of fn(a, c).  Refused k: kfiber_thread_call returned -1.
    Ran k fn a c: a pool thread calls fn(a, c) for call k.  Done k r: that function returned r.
    Ret k w r: kfiber_thread_call returns 0 with *ret = r, on selector w *)
Inductive obs := Made (k f w fn a : nat) (c : Z) | Refused (k : nat) | Ran (k fn a : nat) (c : Z) | Done (k : nat) (r : Z)
  | Ret (k w : nat) (r : Z).

(** [jobs]: given to the pool (ghost: the call), not begun; [act]: running in pool threads; [notes]: posted to selector w with
    result r *)
Record st := St { fibs : gmap nat fib; cur : gmap nat nat; jobs : list (nat * nat); act : list (nat * nat);
  notes : list (nat * nat * nat * Z); next : nat; hist : list obs }.
Definition set_fibs s x := St x (cur s) (jobs s) (act s) (notes s) (next s) (hist s).
Definition set_cur s x := St (fibs s) x (jobs s) (act s) (notes s) (next s) (hist s).
Definition set_jobs s x := St (fibs s) (cur s) x (act s) (notes s) (next s) (hist s).
Definition set_act s x := St (fibs s) (cur s) (jobs s) x (notes s) (next s) (hist s).
Definition set_notes s x := St (fibs s) (cur s) (jobs s) (act s) x (next s) (hist s).
Definition set_next s x := St (fibs s) (cur s) (jobs s) (act s) (notes s) x (hist s).
Definition set_hist s x := St (fibs s) (cur s) (jobs s) (act s) (notes s) (next s) x.
Definition set_st (b : fib) x := Fib x (f_sel b) (f_start b) (f_arg b) (f_ret b).

Inductive ev :=
| Resume (w f : nat)                              (* selector w continues (or starts) its fiber f *)
| Yield (w : nat)                                 (* the running fiber suspends for another reason *)
| Call (w fn a : nat) (c : Z) (ok : bool)         (* 632-639, up to kthread_pool_start; [ok]: its result *)
| Sleep (w : nat)                                 (* 640-645: __kfiber_wait *)
| Begin (n : nat)                                 (* a pool thread begins the n-th waiting job *)
| End (n : nat) (r : Z)                           (* the function of the n-th running job returns r; 628-629 *)
| Deliver (w n : nat).                            (* selector w, running no fiber, delivers a notice posted to it *)

Definition act_step (s : st) (e : ev) : res st (list obs) :=
  match e with
  | Resume w f =>
      match cur s !! w, fibs s !! f with
      | None, Some b => if decide (f_st b = FIdle /\ f_sel b = w)
                        then Ok (set_cur (set_fibs s (<[f := set_st b FRun]> (fibs s))) (<[w := f]> (cur s))) [] else Disabled
      | _, _ => Disabled
      end
  | Yield w =>
      match cur s !! w with
      | Some f => match fibs s !! f with
                  | Some b => if decide (f_st b = FRun)
                              then Ok (set_cur (set_fibs s (<[f := set_st b FIdle]> (fibs s))) (delete w (cur s))) [] else Disabled
                  | None => Crash end
      | None => Disabled
      end
  | Call w fn a c ok =>
      match cur s !! w with
      | Some f => match fibs s !! f with
                  | Some b =>
                      if decide (f_st b = FRun) then
                        let k := next s in
                        let s := set_next s (S k) in
                        if ok then Ok (set_jobs (set_fibs s (<[f := Fib (FCalling k) (f_sel b) fn a c]> (fibs s))) (jobs s ++ [(f, k)]))
                                      [Made k f w fn a c]
                        else Ok (set_fibs s (<[f := Fib FRun (f_sel b) fn a c]> (fibs s))) [Made k f w fn a c; Refused k]
                      else Disabled
                  | None => Crash end
      | None => Disabled
      end
  | Sleep w =>
      match cur s !! w with
      | Some f => match fibs s !! f with
                  | Some b => match f_st b with
                              | FCalling k => Ok (set_cur (set_fibs s (<[f := set_st b (FWait k)]> (fibs s))) (delete w (cur s))) []
                              | _ => Disabled end
                  | None => Crash end
      | None => Disabled
      end
  | Begin n =>
      match jobs s !! n with
      | Some (f, k) => match fibs s !! f with
                       | Some b => Ok (set_act (set_jobs s (delete n (jobs s))) (act s ++ [(f, k)]))
                                      [Ran k (f_start b) (f_arg b) (f_ret b)]
                       | None => Crash end
      | None => Disabled
      end
  | End n r =>
      match act s !! n with
      | Some (f, k) => match fibs s !! f with
                       | Some b => Ok (set_notes (set_act s (delete n (act s))) (notes s ++ [(f_sel b, f, k, r)])) [Done k r]
                       | None => Crash end
      | None => Disabled
      end
  | Deliver w n =>
      match cur s !! w, notes s !! n with
      | None, Some (v, f, _, r) =>
          if decide (v = w) then
            match fibs s !! f with
            | Some b => match f_st b with
                        | FWait k =>
                            if decide (f_sel b = w) then         (* the assertions of kfiber_wakeup, include/kfiber.h:59-62 *)
                              let b := Fib FRun (f_sel b) (f_start b) (f_arg b) r in      (* include/kfiber.h:56-85: the result is stored in the fiber *)
                              Ok (set_cur (set_notes (set_fibs s (<[f := b]> (fibs s))) (delete n (notes s))) (<[w := f]> (cur s)))
                                 [Ret k w (f_ret b)]                                       (* 645: __kfiber_wait returns what is stored *)
                            else Crash
                        | _ => Crash end                         (* continues a fiber that is not in this wait *)
            | None => Crash end
          else Disabled
      | _, _ => Disabled
      end
  end.
Definition step (s : st) (e : ev) : res st (list obs) :=
  match act_step s e with Ok s' o => Ok (set_hist s' (hist s ++ o)) o | x => x end.
(** fibers [l]: (fiber, its selector) *)
Definition init (l : gmap nat nat) : st := St ((fun w => Fib FIdle w 0 0 0) <$> l) ∅ [] [] [] 0 [].
