(** Model of fiber file I/O through worker threads (KF_ASYNC_WORKER, the build for macOS): kfiber_file_open/bind/read/write/seek/tell/close
    and their callback, src/kfiber.c:543-622; kfiber_file_read_full/write_full, include/kfiber.h:293-314; the calls for any thread
    kfiber_file_safe_read and kfiber_file_safe_write_full with their helper fibers, src/kfiber.c:643-694; aio_read/aio_write of the kqueue
    selector with KF_ASYNC_WORKER, src/kkqueue_selector.c:324-388; kasync_file_worker_start and kasync_file_worker_callback,
    src/kasync_file.c:18-64.

    Any number of selectors (each with its thread), fibers, file handles and files; [maxw] = 16 worker threads.
    One step = one call by a fiber up to its suspension, one action of a worker (taking a job; the pread or pwrite with the reading of its
    arguments from the handle; kgl_selector_module.next with the reading of its arguments), one message handled by a selector, one resumption
    of a fiber.  Messages may be handled in any order.
    Simplified: the queue of the worker pool is unlimited and first-in first-out (kasync_worker_init(16, 0); C32-C34); a helper fiber is
    created, started once on the file's selector and joined as C24 says; a fiber woken by the callback becomes ready and runs later (C23);
    lengths fit an int, offsets do not overflow; pread/pwrite act in one step; no direct I/O. *)
From Verif Require Export Lts.
Local Open Scope Z_scope.

Definition upd {A} (g : nat -> A) (k : nat) (v : A) : nat -> A := λ x, if decide (x = k) then v else g x.
(** a fiber of the program, or the helper fiber made for call [id] *)
Inductive fid := Prog (t : nat) | Help (id : nat).
Global Instance fid_eqdec : EqDecision fid. Proof. solve_decision. Defined.
Definition updf {A} (g : fid -> A) (k : fid) (v : A) : fid -> A := λ x, if decide (x = k) then v else g x.
(** overwrite [c] at [off], the gap reads as zeros *)
Definition overwrite (c : list Z) (off : nat) (d : list Z) : list Z :=
  take off (c ++ replicate off 0) ++ d ++ drop (off + length d) c.

(** kasync_file, include/kasync_file.h:35-53: allocated and open; st.base.selector; the file behind st.fd; st.offset; st.data;
    kiocb.buf = the buffer of call [k_id] from byte [k_pos] on; kiocb.length; kiocb.cmd = kf_aio_write *)
Record file := mkf { f_al : bool; f_sel : nat; f_ino : nat; f_off : Z; f_data : fid; k_id : nat; k_pos : nat; k_len : nat; k_wr : bool }.
(** the local variables of a call: its number (ghost), the handle, the calling fiber, write, the length, a _full loop, bytes done so far *)
Record op := mko { o_id : nat; o_f : nat; o_t : nat; o_wr : bool; o_len : nat; o_full : bool; o_done : nat }.
Inductive fstate :=
| FRun | FNone                    (* a fiber of the program between its calls; a helper that does not exist *)
| FStart (o : op)                 (* a helper before its first step *)
| FWait (o : op)                  (* in __kfiber_wait *)
| FReady (o : op) (r : Z)         (* woken with r *)
| FJoin (id f : nat)              (* in kfiber_join of helper id *)
| FExit (o : op) (r : Z).         (* a helper that has ended with r, not joined *)
(** a message for a selector: opaque data, the file (arg), the result *)
Record msg := mkm { m_data : fid; m_sel : nat; m_f : nat; m_r : Z }.
Inductive seekpos := seekBegin | seekCur | seekEnd.
(** what happened, for the statements *)
Inductive hev :=
| HOpen (t f i : nat)
| HClose (f : nat)
| HSeek (f : nat) (p : Z)
| HCall (id t f : nat) (wr : option (list Z)) (len : nat) (full acc : bool) (off : Z)  (* off: the position (ghost); acc = false: no helper fiber could be made *)
| HExec (id f i : nat) (off res : Z) (before after got : list Z)             (* a pread or pwrite: result, file contents, bytes read *)
| HRet (id t f : nat) (r : Z) (rem : nat) (bytes : list Z).                  (* the call returned r, what is left of its length, the buffer of a read *)
Record sys := mks {
  fls : nat -> file; cont : nat -> list Z; queue : list nat; runq : list (nat * option Z); msgs : list msg;
  fib : fid -> fstate; bufs : nat -> list Z; nid : nat; hist : list hev }.
Definition set_fls g s := mks g (cont s) (queue s) (runq s) (msgs s) (fib s) (bufs s) (nid s) (hist s).
Definition set_fib g s := mks (fls s) (cont s) (queue s) (runq s) (msgs s) g (bufs s) (nid s) (hist s).
Definition set_queue q s := mks (fls s) (cont s) q (runq s) (msgs s) (fib s) (bufs s) (nid s) (hist s).
Definition log h s := mks (fls s) (cont s) (queue s) (runq s) (msgs s) (fib s) (bufs s) (nid s) (hist s ++ [h]).

Inductive wev :=
| EOpen (t f i : nat)                                      (* kfiber_file_open / kfiber_file_bind on file i, new handle f *)
| EClose (t f : nat)
| ESeek (t f : nat) (p : seekpos) (off : Z)
| ETell (t f : nat)
| ECall (t f : nat) (wr : option (list Z)) (len : nat) (full : bool)  (* kfiber_file_read, _write, _read_full, _write_full *)
| ESafe (t f : nat) (wr : option (list Z)) (len : nat) (ok : bool)    (* kfiber_file_safe_read, _safe_write_full; ok: kfiber_create2 *)
| HStart (id : nat)                                        (* the selector starts the helper *)
| WTake                                                    (* a worker takes the next job *)
| WExec (j k : nat)                                        (* worker number j: pread/pwrite transfers k bytes *)
| WFail (j : nat)                                          (* ... or fails *)
| WPost (j : nat)                                          (* ... and posts the result *)
| SCb (j : nat)                                            (* a selector handles a message: kfiber_file_callback *)
| EResume (fi : fid)                                       (* the ready loop resumes the fiber *)
| EJoined (t : nat).                                       (* kfiber_join returns *)

Section M.
(** the selector of each fiber of the program; the number of workers *)
Context (home : nat -> nat) (maxw : nat).

Definition adv (o : op) (n : nat) : op := mko (o_id o) (o_f o) (o_t o) (o_wr o) (o_len o) (o_full o) (o_done o + n).
(** the call is over: a program fiber returns, a helper exits (its result waits for the join) *)
Definition finish (s : sys) (fi : fid) (o : op) (r : Z) : sys :=
  match fi with
  | Prog t => log (HRet (o_id o) t (o_f o) r (o_len o - o_done o) (if o_wr o then [] else take (o_done o) (bufs s (o_id o)))) (set_fib (updf (fib s) fi FRun) s)
  | Help _ => set_fib (updf (fib s) fi (FExit o r)) s
  end.
(** kfiber.c:582-591/592-601 with kkqueue_selector.c:352-355/383-386 and kasync_file.c:59-63, in a loop of kfiber.h:294/305 *)
Definition start_op (s : sys) (fi : fid) (o : op) : option sys :=
  let x := fls s (o_f o) in
  if o_full o && (o_len o <=? o_done o)%nat then Some (finish s fi o 1) else
  if negb (f_al x) then None else                                                   (* freed *)
  Some (mks (upd (fls s) (o_f o) (mkf (f_al x) (f_sel x) (f_ino x) (f_off x) fi (o_id o) (o_done o) (o_len o - o_done o) (o_wr o)))
    (cont s) (queue s ++ [o_f o]) (runq s) (msgs s) (updf (fib s) fi (FWait o)) (bufs s) (nid s) (hist s)).
Definition wlen (wr : option (list Z)) (len : nat) : nat := match wr with Some d => length d | None => len end.
Definition is_wr (wr : option (list Z)) : bool := match wr with Some _ => true | None => false end.
(** a call begins: its number and its buffer *)
Definition begin (s : sys) (t f : nat) (wr : option (list Z)) (len : nat) (full acc : bool) : sys :=
  mks (fls s) (cont s) (queue s) (runq s) (msgs s) (fib s)
    (upd (bufs s) (nid s) (match wr with Some d => d | None => [] end)) (S (nid s)) (hist s ++ [HCall (nid s) t f wr (wlen wr len) full acc (f_off (fls s f))]).
Definition ok_or_crash (x : option sys) : res sys (option Z) := match x with Some s => Ok s None | None => Crash end.
(** the worker's system call is done: kasync_file.c:38/48 *)
Definition executed_ (s : sys) (j f : nat) (res : Z) (c' got b : list Z) : sys :=
  let x := fls s f in
  mks (fls s) (upd (cont s) (f_ino x) c') (queue s) (<[j := (f, Some res)]> (runq s)) (msgs s) (fib s) (upd (bufs s) (k_id x) b) (nid s)
    (hist s ++ [HExec (k_id x) f (f_ino x) (f_off x) res (cont s (f_ino x)) c' got]).

Definition wstep (s : sys) (e : wev) : res sys (option Z) :=
  match e with
  | EOpen t f i =>
    match fib s (Prog t) with
    | FRun => if f_al (fls s f) then Disabled else
      Ok (log (HOpen t f i) (set_fls (upd (fls s) f (mkf true (home t) i 0 (Prog t) 0 0 0 false)) s)) None
    | _ => Disabled
    end
  | EClose t f =>
    match fib s (Prog t) with
    | FRun => let x := fls s f in if negb (f_al x) then Crash else
      Ok (log (HClose f) (set_fls (upd (fls s) f (mkf false (f_sel x) (f_ino x) (f_off x) (f_data x) (k_id x) (k_pos x) (k_len x) (k_wr x))) s)) None
    | _ => Disabled
    end
  | ESeek t f p off =>
    match fib s (Prog t) with
    | FRun =>
      let x := fls s f in
      if negb (f_al x) then Crash else
      let go q := Ok (log (HSeek f q) (set_fls (upd (fls s) f (mkf (f_al x) (f_sel x) (f_ino x) q (f_data x) (k_id x) (k_pos x) (k_len x) (k_wr x))) s)) (Some 0) in
      match p with seekBegin => go off | seekCur => go (f_off x + off) | seekEnd => Ok s (Some (-1)) end
    | _ => Disabled
    end
  | ETell t f =>
    match fib s (Prog t) with
    | FRun => if negb (f_al (fls s f)) then Crash else Ok s (Some (f_off (fls s f)))
    | _ => Disabled
    end
  | ECall t f wr len full =>
    match fib s (Prog t) with
    | FRun =>
      if negb (f_al (fls s f)) then Crash else
      (* kfiber.c:583: the fiber suspended is the one current on the file's selector: with another thread, an arbitrary one *)
      if negb (bool_decide (f_sel (fls s f) = home t)) then Crash else
      ok_or_crash (start_op (begin s t f wr len full true) (Prog t) (mko (nid s) f t (is_wr wr) (wlen wr len) full 0))
    | _ => Disabled
    end
  | ESafe t f wr len ok =>
    match fib s (Prog t) with
    | FRun =>
      let full := is_wr wr in
      let o := mko (nid s) f t (is_wr wr) (wlen wr len) full 0 in
      if negb (f_al (fls s f)) then Crash else
      if bool_decide (f_sel (fls s f) = home t) then ok_or_crash (start_op (begin s t f wr len full true) (Prog t) o)  (* 660-662, 679-681 *)
      else if ok then
        let s := begin s t f wr len full true in
        Ok (set_fib (updf (updf (fib s) (Prog t) (FJoin (o_id o) f)) (Help (o_id o)) (FStart o)) s) None
      else Ok (log (HRet (nid s) t f 0 (wlen wr len) []) (begin s t f wr len full false)) (Some 0)
    | _ => Disabled
    end
  | HStart id =>
    match fib s (Help id) with
    | FStart o => ok_or_crash (start_op s (Help id) o)
    | _ => Disabled
    end
  | WTake =>
    match queue s with
    | f :: q => if decide (length (runq s) < maxw)%nat then
        Ok (mks (fls s) (cont s) q (runq s ++ [(f, None)]) (msgs s) (fib s) (bufs s) (nid s) (hist s)) None else Disabled
    | [] => Disabled
    end
  | WExec j k =>
    match runq s !! j with
    | Some (f, None) =>
      let x := fls s f in
      let c := cont s (f_ino x) in
      let off := Z.to_nat (f_off x) in
      let b := bufs s (k_id x) in
      if negb (f_al x) then Crash else
      if negb ((0 <=? f_off x) && (k <=? k_len x)%nat) then Disabled else
      if k_wr x then Ok (executed_ s j f (Z.of_nat k) (if decide (k = 0%nat) then c else overwrite c off (take k (drop (k_pos x) b))) [] b) None
      else if decide (k <= length c - off)%nat then
        let got := take k (drop off c) in Ok (executed_ s j f (Z.of_nat k) c got (overwrite b (k_pos x) got)) None
      else Disabled
    | _ => Disabled
    end
  | WFail j =>
    match runq s !! j with
    | Some (f, None) => if negb (f_al (fls s f)) then Crash else
      Ok (executed_ s j f (-1) (cont s (f_ino (fls s f))) [] (bufs s (k_id (fls s f)))) None
    | _ => Disabled
    end
  | WPost j =>
    match runq s !! j with
    | Some (f, Some r) =>
      let x := fls s f in
      if negb (f_al x) then Crash else
      Ok (mks (fls s) (cont s) (queue s) (take j (runq s) ++ drop (S j) (runq s)) (msgs s ++ [mkm (f_data x) (f_sel x) f r]) (fib s) (bufs s) (nid s) (hist s)) None
    | _ => Disabled
    end
  | SCb j =>
    match msgs s !! j with
    | Some m =>
      let x := fls s (m_f m) in
      if negb (f_al x) then Crash else
      match fib s (m_data m) with
      | FWait o =>
        (* the fiber must belong to the selector that wakes it *)
        if negb (bool_decide ((match m_data m with Prog t => home t | Help _ => f_sel (fls s (o_f o)) end) = m_sel m)) then Crash else
        Ok (mks (upd (fls s) (m_f m) (mkf (f_al x) (f_sel x) (f_ino x) (if 0 <? m_r m then f_off x + m_r m else f_off x) (f_data x) (k_id x) (k_pos x) (k_len x) (k_wr x)))
             (cont s) (queue s) (runq s) (take j (msgs s) ++ drop (S j) (msgs s)) (updf (fib s) (m_data m) (FReady o (m_r m))) (bufs s) (nid s) (hist s)) None
      | _ => Crash                                   (* waking a fiber that does not wait *)
      end
    | None => Disabled
    end
  | EResume fi =>
    match fib s fi with
    | FReady o r =>
      if o_full o then
        if r <=? 0 then Ok (finish s fi o 0) None
        else ok_or_crash (start_op s fi (adv o (Z.to_nat r)))
      else Ok (finish s fi (adv o (Z.to_nat r)) r) None
    | _ => Disabled
    end
  | EJoined t =>
    match fib s (Prog t) with
    | FJoin id f =>
      match fib s (Help id) with
      | FExit o r =>
        Ok (log (HRet id t f r (o_len o - o_done o) (if o_wr o then [] else take (o_done o) (bufs s id)))
              (set_fib (updf (updf (fib s) (Help id) FNone) (Prog t) FRun) s)) (Some r)
      | _ => Disabled
      end
    | _ => Disabled
    end
  end.
(** no handle is open; [c0] = the files' contents *)
Definition winit (c0 : nat -> list Z) : sys :=
  mks (λ _, mkf false 0 0 0 (Prog 0) 0 0 0 false) c0 [] [] [] (λ fi, match fi with Prog _ => FRun | Help _ => FNone end) (λ _, []) 0 [].
End M.
