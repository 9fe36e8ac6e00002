(** C57: with the io_uring backend every started operation calls its callback exactly once, with the kernel's result. *)
From Verif Require Export UringModel.
Local Open Scope Z_scope.

(** ** specification: about the history only *)
(** the calls that have returned, in the order of their callbacks *)
Definition retof (o : obs) : option nat := match o with Cb k _ => Some k | Fail k => Some k | _ => None end.
Definition rets (h : list obs) : list nat := omap retof h.
(** the directions of objects a call uses: a sendfile to socket o uses its write side and both sides of the file *)
Definition uses (c : call) : list (nat * dir) :=
  match c with CRw o d _ => [(o, d)] | CPlain o d => [(o, d)] | CNext o d => [(o, d)] | CSf o f => [(o, W); (f, R); (f, W)] end.
Definition out (h : list obs) (x : nat * dir) : Prop := exists k c, Made k c ∈ h /\ x ∈ uses c /\ k ∉ rets h.
Definition live (h : list obs) (o : nat) : Prop := Born o ∈ h /\ Dead o ∉ h.

(** what a callback may report.  -1: the ring had no room for the request.  Otherwise the kernel's result of the call's own
    request; a wait without buffer reports 0 instead of a positive result (poll events).  In the poll model: the result of
    the recv/send tried for it.  A sendfile reports the result of the splice to the socket, after both splices ended. *)
Definition retok (h : list obs) (k : nat) (v : Z) : Prop :=
  (v = -1 /\ NoSqe k ∈ h)
  \/ exists c, Made k c ∈ h /\
     match c with
     | CRw o d b => Polled o ∉ h /\ (exists r, KRes k o d r ∈ h /\ v = if b then r else Z.min r 0)
                    \/ Polled o ∈ h /\ (if b then Try k (Some v) ∈ h else v = 0)
     | CPlain o d => KRes k o d v ∈ h
     | CNext _ _ => v = 0
     | CSf o f => KRes k o W v ∈ h /\ exists w, KRes k f R w ∈ h
     end.

(** What the program owes: it uses objects that exist, does not start a second operation on a side whose operation has not
    returned, does not destroy such an object or switch it to the poll model; connect, accept, file and plain sendfile
    operations are not used in the poll model.  What the environment owes: pipe2 does not fail, the second entry of a
    sendfile and the entry of the select timeout are available; and the socket of a (plain) sendfile is never used for
    waiting for writability without a buffer.  The refuted theorems below show what goes wrong otherwise. *)
Definition permitted (h : list obs) (e : ev) : Prop :=
  match e with
  | Rw o d _ _ _ _ => live h o /\ ~ out h (o, d)
  | Nxt o d => live h o /\ ~ out h (o, d)
  | Plain o d _ => live h o /\ ~ out h (o, d) /\ Polled o ∉ h
  | Sendfile o f _ pok sub2 =>
      live h o /\ live h f /\ o <> f /\ ~ out h (o, W) /\ ~ out h (f, R) /\ ~ out h (f, W) /\ Polled o ∉ h /\ Polled f ∉ h
      /\ (forall k, Made k (CRw o W false) ∉ h) /\ pok = true /\ sub2 = true
  | SetPoll o | Free o => live h o /\ ~ out h (o, R) /\ ~ out h (o, W)
  | Select sub _ => sub = true
  | _ => True
  end.
(** at every step of the schedule *)
Definition obeys (N : nat) (es : list ev) : Prop :=
  forall es1 e es2 s os, es = es1 ++ e :: es2 -> run (step N) init es1 = Ok s os -> permitted (hist s) e.

