(** Blocking calls of fibers on one selector: kfiber_net_readv / kfiber_net_read (include/kfiber.h:244-268),
    kfiber_net_writev / kfiber_net_write (include/kfiber.h:181-195), and the one-shot waits kfiber_net_connect,
    kfiber_net_getaddr, kfiber_msleep, kfiber_file_read, kfiber_file_write, kfiber_sendfile, kfiber_net_accept
    (src/kfiber.c:383-478, 583-604), all built from kfiber_wait_result / __kfiber_wait (include/kfiber.h:93-146) and
    kfiber_wakeup (include/kfiber.h:53-84) as called by kfiber_result_callback (src/kfiber.c:204-208) and
    kselector_check_timeout (src/kselector.c:188-195).

    The layer below (C49) is an oracle: a request either completes inside the call (result kev_fiber_ok) or stays
    registered and completes later.  One selector = one thread: at most one fiber runs, completions are delivered by the
    selector loop when none runs; the switch itself is C23.  Release build: the debug-only wait codes are not modelled
    (they compare user supplied pointers that may coincide). *)
From stdpp Require Export gmap.
From Verif Require Export Lts.
Local Open Scope Z_scope.

(** where a request is registered: the read or write event of a connection, or a one-shot wait *)
Inductive key := Rd (c : nat) | Wr (c : nat) | One (k : nat).
Global Instance key_eq_dec : EqDecision key.
Proof. solve_decision. Defined.
Global Instance key_countable : Countable key.
Proof.
  refine (inj_countable' (fun x => match x with Rd c => inl (inl c) | Wr c => inl (inr c) | One k => inr k end)
    (fun x => match x with inl (inl c) => Rd c | inl (inr c) => Wr c | inr k => One k end) _). by intros [].
Defined.

(** a registered request: the fiber to wake (e.arg), the user's buffer (e.buffer), and, as ghost, the call that made it *)
Record reg := Reg { r_fiber : nat; r_buf : nat; r_call : nat }.
(** FReady: created, not run yet.  FWait k: suspended in its call number k.  FGone: ended and freed *)
Inductive fst := FReady | FRun | FWait (k : nat) | FGone.
Global Instance fst_eq_dec : EqDecision fst.
Proof. solve_decision. Defined.

(** what the user sees: call k of a fiber returns v; if it was a read or write of n > 0 bytes they went into / came
    from buffer b.  As ghost: the call that registered the request whose completion delivered this value *)
Inductive obs := Ret (k : nat) (v : Z) (b : nat) (own : nat).

(** [alive]: connections not closed; [tmo]: connections with STF_RTIME_OUT; [next]: number of the next call *)
Record st := St { fs : gmap nat fst; cur : option nat; pend : gmap key reg; alive : gset nat; tmo : gset nat; next : nat }.
Definition set_fs s x := St x (cur s) (pend s) (alive s) (tmo s) (next s).
Definition set_cur s x := St (fs s) x (pend s) (alive s) (tmo s) (next s).
Definition set_pend s x := St (fs s) (cur s) x (alive s) (tmo s) (next s).
Definition set_alive s x := St (fs s) (cur s) (pend s) x (tmo s) (next s).
Definition set_next s x := St (fs s) (cur s) (pend s) (alive s) (tmo s) x.

(** kfiber_wakeup from the selector loop: retval is stored and the fiber continues behind its __kfiber_wait.  A fiber that
    is not suspended in a call cannot be switched to: Crash *)
Definition wakeup (s : st) (r : reg) (v : Z) : res st (list obs) :=
  match fs s !! r_fiber r with
  | Some (FWait k) => Ok (set_cur (set_fs s (<[r_fiber r := FRun]> (fs s))) (Some (r_fiber r))) [Ret k v (r_buf r) (r_call r)]
  | _ => Crash
  end.

(** suspend the running fiber in call [next]: __kfiber_wait *)
Definition suspend (s : st) (f : nat) : st :=
  set_next (set_cur (set_fs s (<[f := FWait (next s)]> (fs s))) None) (S (next s)).

(** kfiber_wait_result on a new request: [sync] = Some v: it completed inside the call with v *)
Definition request (s : st) (f : nat) (x : key) (b : nat) (sync : option Z) : res st (list obs) :=
  match sync with
  | Some v => Ok (set_next s (S (next s))) [Ret (next s) v b (next s)]
  | None => Ok (suspend (set_pend s (<[x := Reg f b (next s)]> (pend s))) f) []
  end.

Inductive ev :=
| Sched (f : nat)                                  (* a new fiber starts to run *)
| Read (c b : nat) (sync : option Z)               (* the running fiber calls kfiber_net_read(c, b, ..) *)
| Write (c b : nat) (sync : option Z)
| Wait (b : nat) (sync : option Z)                 (* a one-shot wait *)
| Close (c : nat)                                  (* kfiber_net_close *)
| Exit                                             (* the running fiber ends *)
| Complete (x : key) (v : Z)                       (* the selector loop completes the request registered at x *)
| ReadTimeout (c : nat).                           (* src/kselector.c:188-195 *)

Definition step (s : st) (e : ev) : res st (list obs) :=
  match e with
  | Sched f =>
      match cur s, fs s !! f with
      | None, Some FReady => Ok (set_cur (set_fs s (<[f := FRun]> (fs s))) (Some f)) []
      | _, _ => Disabled
      end
  | Read c b sync =>
      match cur s with
      | None => Disabled
      | Some f =>
          if decide (c ∈ alive s) then
            match pend s !! Rd c with
            | Some r =>                                (* include/kfiber.h:250-260: STF_READ already set *)
                if decide (c ∈ tmo s /\ r_fiber r = f) then Ok (suspend s f) []
                else Crash                              (* the assertions at 255-258 *)
            | None => request s f (Rd c) b sync
            end
          else Disabled
      end
  | Write c b sync =>
      match cur s with
      | None => Disabled
      | Some f =>
          if decide (c ∈ alive s) then
            match pend s !! Wr c with
            | Some _ => Crash                           (* src/kselectable.c:546 *)
            | None => request s f (Wr c) b sync
            end
          else Disabled
      end
  | Wait b sync =>
      match cur s with
      | None => Disabled
      | Some f => request s f (One (next s)) b sync
      end
  | Close c =>
      match cur s with
      | None => Disabled
      | Some f =>
          if decide (c ∈ alive s) then
            match pend s !! Rd c, pend s !! Wr c with
            | None, None => Ok (set_alive s (alive s ∖ {[c]})) []
            | _, _ => Crash                             (* src/kselectable.c:138 *)
            end
          else Disabled
      end
  | Exit =>
      match cur s with
      | None => Disabled
      | Some f => Ok (set_cur (set_fs s (<[f := FGone]> (fs s))) None) []
      end
  | Complete x v =>
      match cur s, pend s !! x with
      | None, Some r => wakeup (set_pend s (delete x (pend s))) r v
      | _, _ => Disabled
      end
  | ReadTimeout c =>
      match cur s, pend s !! Rd c with
      | None, Some r => if decide (c ∈ tmo s) then wakeup s r (-2) else Disabled
      | _, _ => Disabled
      end
  end.

(** [n] new fibers, connections [cs], of which those in [t] have STF_RTIME_OUT *)
Definition init (n : nat) (cs t : gset nat) : st :=
  St (list_to_map ((fun i => (i, FReady)) <$> seq 0 n)) None ∅ cs t 0.
