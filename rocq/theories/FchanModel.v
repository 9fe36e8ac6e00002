(** Model of kfiber_chan (src/kfiber_sync.c:378-508).  A channel is used by the fibers of one selector thread ("NOT
    support thread safe", include/kfiber_sync.h:223), so a call runs without interruption up to the point where it
    suspends or wakes another fiber.  A woken fiber is on the [woken] list until its [Resume]; the real wake-up switches to
    it at once, i.e. the real schedules are among the modelled ones.  Data are opaque pointers, here numbers (0 = NULL).
    [wrole], [warg] are ghosts: the call the suspended fiber is in (the code only has wait_flag) and the argument of its send
    (0 for recv).  Asserts are compiled in. *)
From Verif Require Export Lts.
Local Open Scope Z_scope.

Inductive role := Sender | Receiver.
#[global] Instance role_eq_dec : EqDecision role.
Proof. solve_decision. Defined.
(** include/kselectable.h kfiber_waiter: the fiber and its wait_obj *)
Record waiter := mkw { wrole : role; wfib : positive; warg : Z; wobj : Z }.
Inductive wflag := NO_WAITER | RECV_WAITER | SEND_WAITER.
(** src/kfiber_sync.c (struct _kfiber_chan in include/kfiber_internal.h); newest waiter first *)
Record chan := mkch { chw : list waiter; flag : wflag; closed : bool }.
Definition chan_create : chan := mkch [] NO_WAITER false.

(** what a call does to its caller: return a code, suspend; plus who is to be woken *)
Inductive callres := Return (code : Z) | Suspend | Assert.

(** kfiber_sync.c:387-425 kfiber_chan_send; third component: the receiver to wake, with its wait_obj := data *)
Definition chan_send (c : chan) (f : positive) (d : Z) : chan * callres * option waiter :=
  if closed c then (c, Return (-1), None) else
  match flag c with
  | NO_WAITER => match chw c with
                 | [] => (mkch [mkw Sender f d d] SEND_WAITER (closed c), Suspend, None)
                 | _ => (c, Assert, None)
                 end
  | SEND_WAITER => match chw c with
                   | [] => (c, Assert, None)
                   | ws => (mkch (mkw Sender f d d :: ws) SEND_WAITER (closed c), Suspend, None)
                   end
  | RECV_WAITER => match chw c with
                   | [] => (c, Assert, None)
                   | w :: ws => (mkch ws (match ws with [] => NO_WAITER | _ => flag c end) (closed c), Return 0,
                                 Some (mkw (wrole w) (wfib w) (warg w) d))
                   end
  end.
(** kfiber_sync.c:426-475 kfiber_chan_recv; third component: the sender taken off (its wait_obj is the datum) *)
Definition chan_recv (c : chan) (f : positive) : chan * callres * option waiter :=
  match flag c with
  | NO_WAITER => match chw c with
                 | [] => if closed c then (c, Return (-1), None)
                         else (mkch [mkw Receiver f 0 0] RECV_WAITER (closed c), Suspend, None)
                 | _ => (c, Assert, None)
                 end
  | RECV_WAITER => match chw c with
                   | [] => (c, Assert, None)
                   | ws => if closed c then (c, Return (-1), None)
                           else (mkch (mkw Receiver f 0 0 :: ws) RECV_WAITER (closed c), Suspend, None)
                   end
  | SEND_WAITER => match chw c with
                   | [] => (c, Assert, None)
                   | w :: ws => (mkch ws (match ws with [] => NO_WAITER | _ => flag c end) (closed c), Return 0, Some w)
                   end
  end.
(** kfiber_sync.c:476-494 kfiber_chan_close; the waiters woken with -1 and wait_obj NULL; None = failed assert *)
Definition chan_close (c : chan) : option (chan * list waiter) :=
  if closed c then match chw c with [] => Some (c, []) | _ => None end
  else Some (mkch [] NO_WAITER true, (λ w, mkw (wrole w) (wfib w) (warg w) 0) <$> chw c).

(** The system.  [woken]: released waiter and the code it will return; [deferred]: senders whose datum was taken by a
    recv(.., &sender) and that the receiver still has to wake with kfiber_chan_wakeup. *)
Record sys := mksys { ch : chan; woken : list (waiter * Z); deferred : list waiter }.
Definition sys_init : sys := mksys chan_create [] [].

Inductive ev := Send (f : positive) (d : Z) | Recv (f : positive) (defer : bool) | Wakeup (f : positive) (got : Z)
              | Close | Resume (f : positive).
(** results seen by the callers: a send of d returned the code; a recv returned the code and (code 0) the datum *)
Inductive out := OSend (d : Z) (code : Z) | ORecv (code : Z) (d : Z) | OSuspend | ODone.

Definition fibers (s : sys) : list positive := (wfib <$> chw (ch s)) ++ (wfib ∘ fst <$> woken s) ++ (wfib <$> deferred s).
Definition finish (w : waiter) (code : Z) : out :=
  match wrole w with Sender => OSend (warg w) code | Receiver => ORecv code (wobj w) end.
Definition step (s : sys) (e : ev) : res sys out :=
  match e with
  | Send f d => if decide (f ∈ fibers s) then Disabled else
      match chan_send (ch s) f d with
      | (_, Assert, _) => Crash
      | (c, Suspend, _) => Ok (mksys c (woken s) (deferred s)) OSuspend
      | (c, Return r, ow) => Ok (mksys c (match ow with Some w => (w, 0) :: woken s | None => woken s end) (deferred s)) (OSend d r)
      end
  | Recv f defer => if decide (f ∈ fibers s) then Disabled else
      match chan_recv (ch s) f with
      | (_, Assert, _) => Crash
      | (c, Suspend, _) => Ok (mksys c (woken s) (deferred s)) OSuspend
      | (c, Return r, None) => Ok (mksys c (woken s) (deferred s)) (ORecv r 0)
      | (c, Return r, Some w) =>
          Ok (if defer then mksys c (woken s) (w :: deferred s) else mksys c ((w, 0) :: woken s) (deferred s)) (ORecv r (wobj w))
      end
  | Wakeup f got => match list_find (λ w, wfib w = f) (deferred s) with
                    | Some (i, w) => Ok (mksys (ch s) ((w, got) :: woken s) (delete i (deferred s))) ODone
                    | None => Disabled
                    end
  | Close => match chan_close (ch s) with
             | None => Crash
             | Some (c, ws) => Ok (mksys c (((λ w, (w, -1)) <$> ws) ++ woken s) (deferred s)) ODone
             end
  | Resume f => match list_find (λ x, wfib x.1 = f) (woken s) with
                | Some (i, (w, code)) => Ok (mksys (ch s) (delete i (woken s)) (deferred s)) (finish w code)
                | None => Disabled
                end
  end.

(** what an observer sees in a schedule *)
Definition attempted (es : list ev) : list Z := omap (λ e, match e with Send _ d => Some d | _ => None end) es.
Definition sent_ok (os : list out) : list Z := omap (λ o, match o with OSend d 0 => Some d | _ => None end) os.
Definition sent_fail (os : list out) : list Z := omap (λ o, match o with OSend d 0 => None | OSend d _ => Some d | _ => None end) os.
Definition received (os : list out) : list Z := omap (λ o, match o with ORecv 0 d => Some d | _ => None end) os.
(** ... and what is in progress in a state: sends suspended on the channel, sends whose caller has not continued yet
    (handed over / refused), receives whose caller has not continued yet *)
Definition suspended_sends (s : sys) : list Z := warg <$> filter (λ w, wrole w = Sender) (chw (ch s)).
Definition handed_sends (s : sys) : list Z :=
  (warg <$> deferred s) ++ omap (λ x, match wrole x.1, x.2 with Sender, 0 => Some (warg x.1) | _, _ => None end) (woken s).
Definition refused_sends (s : sys) : list Z :=
  omap (λ x, match wrole x.1, x.2 with Sender, 0 => None | Sender, _ => Some (warg x.1) | _, _ => None end) (woken s).
Definition arriving (s : sys) : list Z :=
  omap (λ x, match wrole x.1, x.2 with Receiver, 0 => Some (wobj x.1) | _, _ => None end) (woken s).
(** kfiber_chan_wakeup of a deferred sender is called with got = 0 *)
Definition wake0 (e : ev) : Prop := match e with Wakeup _ got => got = 0 | _ => True end.
