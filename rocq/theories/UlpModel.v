(** Model of the loop of the io_uring selector and of cross-thread notices on it: kiouring_get_seq, kiouring_add_poll / add_event,
    kiouring_notice_event, iouring_selector_init, iouring_selector_next (src/kiouring_selector.c:66-163), iouring_add_timeout,
    handle_complete_event, iouring_handle_cq, iouring_selector_select (359-449); the notice queue itself is NoticeModel.v
    (include/kepoll_selector.h:18-50).

    The kernel is an adversary: it may take only the first entries of the submission ring or fail to take any, complete operations in any
    order and polls with an error, and interrupt a wait.  It completes the poll of the eventfd with a mask only while the counter is not 0;
    io_uring_enter does not wait unless it took all entries.  Simplified: other operations are ids and their callbacks may start further
    operations and post notices; the list membership of the notice selectable (never listed) is left out; the completion ring holds any
    number of entries (the kernel keeps what does not fit) and is freed entry by entry; int arithmetic wraps. *)
From Verif Require Export NoticeModel.
From Coq Require Export ZArith.

(** submission entries: poll of the eventfd; timeout (number of the call of select whose stack frame holds the timespec, seconds,
    nanoseconds); another operation *)
Inductive sqe := QPoll | QTmo (r : nat) (sec nsec : Z) | QOther (id : nat).
Inductive cqe := CPoll (res : Z) | CTmo | COther (id : nat).
(** where the selector thread is: outside select; waiting in io_uring_submit_and_wait; handling completions, n to go; inside the callback
    of another operation; inside kiouring_notice_event *)
Inductive lpc := LOut | LWait | LHandle (n : nat) | LOther (n : nat) | LNotice (n : nat).
Record ul := mkul {
  nqs : nq; sq : list sqe;
  kpoll : nat; ktmo : nat; kother : list nat (* taken by the kernel, not completed *);
  cq : list cqe; lp : lpc; rnd : nat (* calls of select so far *); rflag : bool (* STF_READ of notice_st *) }.

(** int arithmetic *)
Definition int32 (x : Z) : Z := ((x + 2 ^ 31) mod 2 ^ 32 - 2 ^ 31)%Z.
(** timespec of select, kiouring_selector.c:440-441 *)
Definition ts (tmo : Z) : Z * Z := let sec := Z.quot tmo 1000 in (sec, (int32 (tmo * 1000000) - sec * 1000000000)%Z).
(** the kernel refuses other values (-EINVAL: the timeout completes at once) *)
Definition ts_valid (sec nsec : Z) : bool := ((0 <=? sec) && (0 <=? nsec) && (nsec <? 1000000000))%Z.

Inductive uev :=
| UPost (e : nev)                                    (* NPush / NWrite by any thread: iouring_selector_next *)
| UAdd (id : nat) (d : option nat)                   (* the selector thread starts another operation *)
| USelect (tmo : Z) (d1 d2 : option nat)             (* iouring_selector_select up to the wait *)
| UWake (intr : bool)                                (* the wait ends *)
| UHandle                                            (* one turn of iouring_handle_cq, or its end *)
| UReturn                                            (* the callback of another operation returns *)
| UNotice (e : nev)                                  (* NPop / NReturn in kepoll_notice_event *)
| URearm (d : option nat)                            (* the end of kiouring_notice_event *)
| KPoll (res : Z) | KTmo | KOther (id : nat).        (* the kernel completes *)
(** d: what io_uring_submit does if it is called: fails / takes the first k entries *)

(** which steps of the notice queue are those of kepoll_notice, and which those of the loop of kepoll_notice_event *)
Definition by_poster (e : nev) : bool := match e with NPush _ _ | NWrite _ => true | _ => false end.
Definition by_drain (e : nev) : bool := match e with NPop | NReturn => true | _ => false end.

Section M.
Context (alloc : nat -> gset positive -> positive) (size : nat (* URING_COUNT *)).

Definition set_nq (q : nq) (s : ul) : ul := mkul q (sq s) (kpoll s) (ktmo s) (kother s) (cq s) (lp s) (rnd s) (rflag s).
Definition set_sq (l : list sqe) (s : ul) : ul := mkul (nqs s) l (kpoll s) (ktmo s) (kother s) (cq s) (lp s) (rnd s) (rflag s).
Definition set_cq (l : list cqe) (s : ul) : ul := mkul (nqs s) (sq s) (kpoll s) (ktmo s) (kother s) l (lp s) (rnd s) (rflag s).
Definition set_lp (l : lpc) (s : ul) : ul := mkul (nqs s) (sq s) (kpoll s) (ktmo s) (kother s) (cq s) l (rnd s) (rflag s).
Definition set_rflag (b : bool) (s : ul) : ul := mkul (nqs s) (sq s) (kpoll s) (ktmo s) (kother s) (cq s) (lp s) (rnd s) b.

(** the kernel takes one entry; [fr]: the call of select whose frame is alive.  None: it reads a timespec in a dead frame *)
Definition take_one (fr : option nat) (q : sqe) (s : ul) : option ul :=
  match q with
  | QPoll => Some (mkul (nqs s) (sq s) (S (kpoll s)) (ktmo s) (kother s) (cq s) (lp s) (rnd s) (rflag s))
  | QOther id => Some (mkul (nqs s) (sq s) (kpoll s) (ktmo s) (id :: kother s) (cq s) (lp s) (rnd s) (rflag s))
  | QTmo r sec nsec =>
      if decide (fr = Some r) then
        Some (if ts_valid sec nsec then mkul (nqs s) (sq s) (kpoll s) (S (ktmo s)) (kother s) (cq s) (lp s) (rnd s) (rflag s)
              else set_cq (cq s ++ [CTmo]) s)
      else None
  end.
Fixpoint take_all (fr : option nat) (l : list sqe) (s : ul) {struct l} : option ul :=
  match l with [] => Some s | q :: l => match take_one fr q s with Some s => take_all fr l s | None => None end end.
Definition submit (fr : option nat) (k : nat) (s : ul) : option ul := take_all fr (take k (sq s)) (set_sq (drop k (sq s)) s).

Inductive got A := Bad | Null | Got (a : A).
Arguments Bad {A}. Arguments Null {A}. Arguments Got {A}.
(** kiouring_get_seq, kiouring_selector.c:66-82, and the entry put into the slot *)
Definition get_seq (fr : option nat) (d : option nat) (q : sqe) (s : ul) : got ul :=
  if decide (length (sq s) < size) then Got (set_sq (sq s ++ [q]) s)
  else match d with
       | None => Null
       | Some k => match submit fr k s with
                   | None => Bad
                   | Some s => if decide (length (sq s) < size) then Got (set_sq (sq s ++ [q]) s) else Null
                   end
       end.

(** may the selector thread start operations here *)
Definition in_user_code (s : ul) : bool :=
  match lp s with LOut | LOther _ => true | LNotice _ => match pc (nqs s) with SRun _ _ => true | _ => false end | _ => false end.

Definition ustep (s : ul) (e : uev) : res ul unit :=
  match e with
  | UPost n =>
      if by_poster n then match nstep alloc (nqs s) n with Ok q _ => Ok (set_nq q s) tt | Crash => Crash | Disabled => Disabled end
      else Disabled
  | UAdd id d =>
      if in_user_code s then
        match get_seq None d (QOther id) s with Bad => Crash | Null => Ok s tt | Got s => Ok s tt end
      else Disabled
  | USelect tmo d1 d2 =>
      match lp s with
      | LOut =>
          let r := S (rnd s) in
          let s := mkul (nqs s) (sq s) (kpoll s) (ktmo s) (kother s) (cq s) (lp s) r (rflag s) in
          match get_seq (Some r) d1 (QTmo r (ts tmo).1 (ts tmo).2) s with
          | Bad => Crash
          | Null => Crash                                    (* io_uring_prep_timeout(NULL), :361-362 *)
          | Got s =>
              match d2 with
              | None => Ok (set_lp (LHandle (length (cq s))) s) tt
              | Some k =>
                  match submit (Some r) k s with
                  | None => Crash
                  | Some s => if decide (sq s = []) then Ok (set_lp LWait s) tt else Ok (set_lp (LHandle (length (cq s))) s) tt
                  end
              end
          end
      | _ => Disabled
      end
  | UWake intr =>
      match lp s with
      | LWait => if decide (cq s = [] /\ intr = false) then Disabled else Ok (set_lp (LHandle (length (cq s))) s) tt
      | _ => Disabled
      end
  | UHandle =>
      match lp s with
      | LHandle 0 => Ok (set_lp LOut s) tt
      | LHandle (S n) =>
          match cq s with
          | [] => Disabled
          | CTmo :: c => Ok (set_lp (LHandle n) (set_cq c s)) tt
          | COther _ :: c => Ok (set_lp (LOther n) (set_cq c s)) tt
          | CPoll res :: c =>
              if rflag s then
                let s := set_rflag false (set_cq c s) in
                if decide (res < 0)%Z then Ok (set_lp (LHandle n) s) tt
                else match nstep alloc (nqs s) NRead with
                     | Ok q _ => Ok (set_lp (LNotice n) (set_nq q s)) tt
                     | _ => Crash                            (* read(2) blocks the selector *)
                     end
              else Crash                                     (* kassert(STF_READ) *)
          end
      | _ => Disabled
      end
  | UReturn => match lp s with LOther n => Ok (set_lp (LHandle n) s) tt | _ => Disabled end
  | UNotice n =>
      match lp s with
      | LNotice _ =>
          if by_drain n then match nstep alloc (nqs s) n with Ok q _ => Ok (set_nq q s) tt | Crash => Crash | Disabled => Disabled end
          else Disabled
      | _ => Disabled
      end
  | URearm d =>
      match lp s with
      | LNotice n =>
          match nstep alloc (nqs s) NLoopEnd with
          | Ok q _ =>
              let s := set_lp (LHandle n) (set_nq q s) in
              match get_seq None d QPoll s with
              | Bad => Crash
              | Null => Ok s tt                              (* only logged, :118-120 *)
              | Got s => Ok (set_rflag true s) tt
              end
          | Crash => Crash
          | Disabled => Disabled
          end
      | _ => Disabled
      end
  | KPoll res =>
      match kpoll s with
      | S n =>
          if decide ((0 < res)%Z /\ 0 < ev (nqs s) \/ (res < 0)%Z) then
            Ok (mkul (nqs s) (sq s) n (ktmo s) (kother s) (cq s ++ [CPoll res]) (lp s) (rnd s) (rflag s)) tt
          else Disabled
      | 0 => Disabled
      end
  | KTmo =>
      match ktmo s with
      | S n => Ok (mkul (nqs s) (sq s) (kpoll s) n (kother s) (cq s ++ [CTmo]) (lp s) (rnd s) (rflag s)) tt
      | 0 => Disabled
      end
  | KOther id =>
      if decide (id ∈ kother s) then
        Ok (mkul (nqs s) (sq s) (kpoll s) (ktmo s) (remove1 id (kother s)) (cq s ++ [COther id]) (lp s) (rnd s) (rflag s)) tt
      else Disabled
  end.
End M.
(** iouring_selector_init, kiouring_selector.c:138-153 *)
Definition ul_init : ul := mkul nq_init [QPoll] 0 0 [] [] LOut 0 true.
