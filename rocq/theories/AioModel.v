(** Model of fiber file I/O on the epoll backend with Linux AIO: kfiber_file_read/write/seek/tell and their callback,
    src/kfiber.c:566-622; epoll_selector_aio_read/aio_write, src/kepoll_selector.c:415-493 (without KF_ASYNC_WORKER);
    result_aio_event and aio_result, 60-96; the offset and result adjustment of direct I/O and kasync_file_direct,
    include/kasync_file.h:66-84, src/kasync_file.c:124-135; the buffer adjustment macro, include/kfiber.h:325.

    One selector, any number of files and fibers.  One step = one call by a fiber up to its suspension, one kernel action, one
    system call of the completion loop or one completion callback.  Simplified: a call's length is a natural number whose rounding up
    to the block size fits an int; 64-bit offsets do not overflow; one handle per file (a file's contents change only by writes through
    its handle); eventfd read does not fail when epoll reports it; a fiber woken by the callback becomes ready and runs later in the ready loop
    (C23, C29); the number of finished operations fits an int (the context has room for 128). *)
From Verif Require Export Lts.
Local Open Scope Z_scope.

Definition upd {A} (g : nat -> A) (k : nat) (v : A) : nat -> A := λ x, if decide (x = k) then v else g x.
(** C conversions: (uint16_t)x, (int16_t)x *)
Definition u16 (x : Z) : Z := x mod 65536.
Definition i16 (x : Z) : Z := (x + 32768) mod 65536 - 32768.

(** kasync_file: st.offset, st.direct_io, st.direct_io_offset, st.direct_io_orig_length, st.data (the bound fiber) *)
Record file := mkf { foff : Z; fdir : bool; fdoff : Z; folen : Z; fdata : nat }.
(** an iocb given to io_submit: file (aio_data), None = PREAD / Some bytes = PWRITE, aio_offset, aio_nbytes; the id is a ghost *)
Record iocb := mki { i_id : nat; i_file : nat; i_wr : option (list Z); i_off : Z; i_len : Z }.
(** io_event: data (the file) and res; the id is a ghost *)
Record cqe := mkc { c_id : nat; c_file : nat; c_res : Z }.
Inductive fst_ := FRun | FWait (id f : nat) | FReady (id f : nat) (r : Z).
Inductive apc := AIdle | ADrain (fin_ : nat) (batch : list cqe).
Inductive seekpos := seekBegin | seekCur | seekEnd.
(** what happened, for the statements *)
Inductive hev :=
| HCall (id t f : nat) (wr : option (list Z)) (off : Z) (len : nat) (dir acc : bool)  (* acc = false: the call returned -1 at once *)
| HExec (id f : nat) (res : Z) (before after : list Z)                                (* the kernel's result, the file's contents *)
| HRet (id t f : nat) (r : Z) (bytes : list Z)                                        (* the call returned r, the bytes at the adjusted buffer *)
| HSeek (f : nat) (p : Z).
Record sys := mks {
  fls : nat -> file; cont : nat -> list Z; infl : list iocb; ring : list cqe; unsig : nat; evfd : nat; pc : apc;
  fib : nat -> fst_; bufs : nat -> list Z; nid : nat; hist : list hev }.
Definition set_fls g s := mks g (cont s) (infl s) (ring s) (unsig s) (evfd s) (pc s) (fib s) (bufs s) (nid s) (hist s).
Definition set_pc p s := mks (fls s) (cont s) (infl s) (ring s) (unsig s) (evfd s) p (fib s) (bufs s) (nid s) (hist s).
Definition log h s := mks (fls s) (cont s) (infl s) (ring s) (unsig s) (evfd s) (pc s) (fib s) (bufs s) (nid s) (hist s ++ [h]).

Inductive aev :=
| ARead (t f len : nat) (al ok : bool)            (* al: the buffer is aligned; ok: io_submit returns 1 *)
| AWrite (t f : nat) (data : list Z) (al ok : bool)
| ASeek (t f : nat) (p : seekpos) (off : Z)
| ATell (t f : nat)
| ADirect (t f : nat) (on ok : bool)              (* kasync_file_direct; ok: fcntl succeeds *)
| AResume (t : nat)                               (* the ready loop resumes the fiber *)
| KExec (i k : nat)                               (* the kernel performs submitted operation number i, k bytes *)
| KFail (i : nat) (err : Z)                       (* ... or fails with -err *)
| KSignal                                         (* and, after publishing the event, adds 1 to the eventfd *)
| SRead                                           (* result_aio_event, kepoll_selector.c:71-74 *)
| SGet (r : nat)                                  (* io_getevents returns r > 0: 80-91 *)
| SGetNone                                        (* ... or 0 or an error *)
| SCb                                             (* 86-89: one turn *)
| SDone.                                          (* 77: finished_aio = 0 *)

Section M.
(** [A] = kgl_aio_align_size; [nd]: compiled with NDEBUG *)
Context (A : Z) (nd : bool).
(** kgl_align_floor, kgl_align: include/kmalloc.h:34-35 *)
Definition afloor (d : Z) : Z := Z.ldiff d (A - 1).
Definition aup (d : Z) : Z := Z.ldiff (d + (A - 1)) (A - 1).
(** _kasync_file_get_adjust_offset: include/kasync_file.h:66-68 *)
Definition adj_off (x : file) : Z := foff x - i16 (fdoff x).
(** kasync_file_adjust_result: include/kasync_file.h:69-81; None = failed assertion *)
Definition adj_res (x : file) (got : Z) : option Z :=
  if negb nd && (fdoff x <? 0) then None else
  if negb (fdir x) then Some got else
  if negb nd && negb (fdoff x <? got) then None else
  if got <? fdoff x then Some (-1) else Some (Z.min (got - fdoff x) (folen x)).

(** a call after its preparation of the file structure [x] and the length for the kernel: kfiber.c:587-590/597-600 *)
Definition submit (s : sys) (t f : nat) (x : file) (wr : option (list Z)) (off : Z) (len : nat) (klen : Z) (ok : bool) : sys :=
  let h := HCall (nid s) t f wr off len (fdir x) ok in
  if ok then mks (upd (fls s) f x) (cont s) (infl s ++ [mki (nid s) f wr (adj_off x) klen]) (ring s) (unsig s) (evfd s) (pc s)
      (upd (fib s) t (FWait (nid s) f)) (bufs s) (S (nid s)) (hist s ++ [h])
  else mks (upd (fls s) f x) (cont s) (infl s) (ring s) (unsig s) (evfd s) (pc s) (fib s) (bufs s) (S (nid s)) (hist s ++ [h]).
(** overwrite [c] at [off], the gap reads as zeros *)
Definition overwrite (c : list Z) (off : nat) (d : list Z) : list Z :=
  take off (c ++ replicate off 0) ++ d ++ drop (off + length d) c.
Definition complete (s : sys) (i : nat) (o : iocb) (res : Z) (c' : list Z) (b : list Z) : sys :=
  mks (fls s) (upd (cont s) (i_file o) c') (take i (infl s) ++ drop (S i) (infl s)) (ring s ++ [mkc (i_id o) (i_file o) res])
    (S (unsig s)) (evfd s) (pc s) (fib s) (upd (bufs s) (i_id o) b) (nid s) (hist s ++ [HExec (i_id o) (i_file o) res (cont s (i_file o)) c']).
(** MAXEVENT *)
Definition maxevent : nat := 512%nat.

Definition astep (s : sys) (e : aev) : res sys (option Z) :=
  match e with
  | ARead t f len al ok =>
    match pc s, fib s t with
    | AIdle, FRun =>
      let x := fls s f in
      if fdir x then
        if negb nd && negb al then Crash else                                        (* 457 *)
        let new_off := afloor (foff x) in
        let new_len := aup (Z.of_nat len) in
        let new_len := if new_len =? 0 then A else new_len in
        Ok (submit s t f (mkf (foff x) true (u16 (foff x - new_off)) (Z.of_nat len) t) None (foff x) len new_len ok) None
      else Ok (submit s t f (mkf (foff x) false 0 (folen x) t) None (foff x) len (Z.of_nat len) ok) None
    | _, _ => Disabled
    end
  | AWrite t f data al ok =>
    match pc s, fib s t with
    | AIdle, FRun =>
      let x := fls s f in
      if fdir x then
        if negb nd && (negb al || negb (foff x =? aup (foff x))) then Crash else      (* 421-422 *)
        Ok (submit s t f (mkf (foff x) true 0 (Z.of_nat (length data)) t) (Some data) (foff x) (length data) (Z.of_nat (length data)) ok) None
      else Ok (submit s t f (mkf (foff x) false 0 (folen x) t) (Some data) (foff x) (length data) (Z.of_nat (length data)) ok) None
    | _, _ => Disabled
    end
  | ASeek t f p off =>
    match pc s, fib s t with
    | AIdle, FRun =>
      let x := fls s f in
      match p with
      | seekBegin => Ok (log (HSeek f off) (set_fls (upd (fls s) f (mkf off (fdir x) (fdoff x) (folen x) (fdata x))) s)) (Some 0)
      | seekCur => Ok (log (HSeek f (foff x + off)) (set_fls (upd (fls s) f (mkf (foff x + off) (fdir x) (fdoff x) (folen x) (fdata x))) s)) (Some 0)
      | seekEnd => Ok s (Some (-1))
      end
    | _, _ => Disabled
    end
  | ATell t f =>
    match pc s, fib s t with
    | AIdle, FRun => Ok s (Some (foff (fls s f)))
    | _, _ => Disabled
    end
  | ADirect t f on ok =>
    match pc s, fib s t with
    | AIdle, FRun =>
      let x := fls s f in
      if ok then Ok (set_fls (upd (fls s) f (mkf (foff x) on (fdoff x) (folen x) (fdata x))) s) (Some 1) else Ok s (Some 0)
    | _, _ => Disabled
    end
  | AResume t =>
    match pc s, fib s t with
    | AIdle, FReady id f r =>
      let h := HRet id t f r (take (Z.to_nat r) (drop (Z.to_nat (fdoff (fls s f))) (bufs s id))) in
      Ok (mks (fls s) (cont s) (infl s) (ring s) (unsig s) (evfd s) (pc s) (upd (fib s) t FRun) (bufs s) (nid s) (hist s ++ [h])) (Some r)
    | _, _ => Disabled
    end
  | KExec i k =>
    match infl s !! i with
    | Some o =>
      let c := cont s (i_file o) in
      if negb ((0 <=? i_off o) && (Z.of_nat k <=? i_len o)) then Disabled else
      let off := Z.to_nat (i_off o) in
      match i_wr o with
      | None => if decide (k <= length c - off)%nat then Ok (complete s i o (Z.of_nat k) c (take k (drop off c))) None else Disabled
      | Some d => Ok (complete s i o (Z.of_nat k) (if decide (k = 0%nat) then c else overwrite c off (take k d)) (bufs s (i_id o))) None
      end
    | None => Disabled
    end
  | KFail i err =>
    match infl s !! i with
    | Some o => if 0 <? err then Ok (complete s i o (- err) (cont s (i_file o)) (bufs s (i_id o))) None else Disabled
    | None => Disabled
    end
  | KSignal =>
    match unsig s with
    | S n => Ok (mks (fls s) (cont s) (infl s) (ring s) n (S (evfd s)) (pc s) (fib s) (bufs s) (nid s) (hist s)) None
    | O => Disabled
    end
  | SRead =>
    match pc s, evfd s with
    | AIdle, S n => Ok (mks (fls s) (cont s) (infl s) (ring s) (unsig s) 0 (ADrain (S n) []) (fib s) (bufs s) (nid s) (hist s)) None
    | _, _ => Disabled
    end
  | SGet r =>
    match pc s with
    | ADrain (S n) [] =>
      if decide (0 < r /\ r <= S n /\ r <= maxevent /\ r <= length (ring s))%nat then
        Ok (mks (fls s) (cont s) (infl s) (drop r (ring s)) (unsig s) (evfd s) (ADrain (S n - r) (take r (ring s))) (fib s) (bufs s) (nid s) (hist s)) None
      else Disabled
    | _ => Disabled
    end
  | SGetNone => match pc s with ADrain (S n) [] => Ok s None | _ => Disabled end
  | SCb =>
    match pc s with
    | ADrain n (c :: b) =>
      let f := c_file c in
      let x := fls s f in
      match adj_res x (c_res c) with
      | None => Crash
      | Some r =>
        match fib s (fdata x) with
        | FWait id _ =>
          Ok (mks (upd (fls s) f (mkf (if 0 <? r then foff x + r else foff x) (fdir x) (fdoff x) (folen x) (fdata x)))
                (cont s) (infl s) (ring s) (unsig s) (evfd s) (ADrain n b) (upd (fib s) (fdata x) (FReady id f r)) (bufs s) (nid s) (hist s)) None
        | _ => Crash                                   (* waking a fiber that does not wait *)
        end
      end
    | _ => Disabled
    end
  | SDone => match pc s with ADrain O [] => Ok (set_pc AIdle s) None | _ => Disabled end
  end.
(** all files at position 0, not direct; [c0] = the files' contents *)
Definition ainit (c0 : nat -> list Z) : sys :=
  mks (λ _, mkf 0 false 0 0 0) c0 [] [] 0 0 AIdle (λ _, FRun) (λ _, []) 0 [].
End M.
