(** What the claims about the Windows backend mean, in terms of the history of calls, answers and kernel results. *)
From Verif Require Export IocpModel.
Local Open Scope Z_scope.

#[global] Instance call_dec : EqDecision call. Proof. solve_decision. Defined.
#[global] Instance obs_dec : EqDecision obs. Proof. solve_decision. Defined.

(** an answer to request [k]: its callback runs, or the call that made it returns false *)
Definition is_ans (k : nat) (e : obs) : bool := match e with OCb j _ | OFail j => bool_decide (j = k) | _ => false end.
Definition answers (h : list obs) (k : nat) : nat := length (filter (λ e, is_ans k e = true) h).
(** request [k] has been made: on an object, or by [next] *)
Definition made (h : list obs) (k : nat) : Prop := (exists o c, OMade k o c ∈ h) \/ (exists v, OPost k v ∈ h).
Definition unanswered (h : list obs) (k : nat) : Prop := made h k /\ answers h k = 0%nat.
(** object [o] has an unanswered request in direction [d] *)
Definition waiting (h : list obs) (o : nat) (d : dir) : Prop := exists k c, OMade k o c ∈ h /\ cside c = d /\ answers h k = 0%nat.
(** an accept socket is gone when it has been given to the user or closed *)
Definition is_gone (n : nat) (e : obs) : bool := match e with OHand m | OSockClose m => bool_decide (m = n) | _ => false end.
Definition gone (h : list obs) (n : nat) : nat := length (filter (λ e, is_gone n e = true) h).
(** the kernel's word on request [k] *)
Definition is_kern (k : nat) (e : obs) : bool := match e with OKern j _ => bool_decide (j = k) | _ => false end.
Definition kerns (h : list obs) (k : nat) : nat := length (filter (λ e, is_kern k e = true) h).

(** What the user owes: one request per direction at a time (for connect and files: one at all); an object is closed only when its requests
    are answered; the socket of the last accept is collected (kserver_get_socket) before the next accept; UDP sockets receive with packet
    information and a buffer *)
Definition duty (s : sys) (e : ev) : Prop :=
  match e with
  | EOpen _ k _ => k <> KUdp false
  | EClose o | EConnect o _ | EAio o _ _ => ~ waiting (hist s) o R /\ ~ waiting (hist s) o W
  | ERead o b _ => ~ waiting (hist s) o R /\ (b = true \/ kd <$> objs s !! o = Some KConn)
  | EWrite o _ _ | ESend o _ => ~ waiting (hist s) o W
  | ENextRW o d => ~ waiting (hist s) o d
  | EAccept o => ~ waiting (hist s) o R /\ forall n, OSock o n ∈ hist s -> gone (hist s) n = 1%nat
  | _ => True
  end.
Fixpoint keeps (s : sys) (es : list ev) : Prop :=
  match es with [] => True | e :: es => duty s e /\ match step s e with Ok s' _ => keeps s' es | _ => True end end.
Definition reach (s : sys) : Prop := exists es os, keeps init es /\ run step init es = Ok s os.

(** nothing left to do: no operation in flight, the port empty, no object on the READY list, the thread neither in the READY loop nor in accept *)
Definition quiet (s : sys) : Prop :=
  pend s = [] /\ cq s = [] /\ pc s = PIdle /\ acc s = None /\ forall o x, objs s !! o = Some x -> loc x <> Some LReady.
(** the calls of [next] that were not dropped, in order; the callbacks of [next] that have run, in order *)
Definition posts (h : list obs) : list nat := omap (λ e, match e with OPost k _ => if decide (ODrop k ∈ h) then None else Some k | _ => None end) h.
Definition next_cbs (h : list obs) : list nat := omap (λ e, match e with OCb k _ => if decide (k ∈ posts h) then Some k else None | _ => None end) h.
(** what the kernel and the loop do by themselves *)
Definition internal (e : ev) : bool := match e with EKernel _ _ | ESelect | EReady _ | EPart => true | _ => false end.

Lemma answers_app h1 h2 k : answers (h1 ++ h2) k = (answers h1 k + answers h2 k)%nat.
Proof. unfold answers. by rewrite filter_app, app_length. Qed.
Lemma gone_app h1 h2 k : gone (h1 ++ h2) k = (gone h1 k + gone h2 k)%nat.
Proof. unfold gone. by rewrite filter_app, app_length. Qed.
Lemma kerns_app h1 h2 k : kerns (h1 ++ h2) k = (kerns h1 k + kerns h2 k)%nat.
Proof. unfold kerns. by rewrite filter_app, app_length. Qed.
