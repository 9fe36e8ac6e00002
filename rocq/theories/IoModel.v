(** Model of the "transfer everything" loops (include/kfiber.h:196-314), of TLS scatter/gather I/O
    (src/kselectable.c:21-104) and of the direct I/O window (include/kasync_file.h:66-84,
    src/kepoll_selector.c:454-494, include/kfiber.h:325, src/kfiber.c:461-468, 566-601).

    Bytes are integers.  The outcome of the k-th underlying partial transfer asked for n bytes is [env k n];
    the only assumption on it is [env k n <= n].  Loops get a fuel argument: [None] = out of fuel (the theorems
    show that a fuel computed from the request is enough).  C int arithmetic does not overflow because every
    value lies between 0 and the request. *)
From Verif Require Export Lts.
Local Open Scope Z_scope.

Definition slice (d : list Z) (off n : Z) : list Z := take (Z.to_nat n) (drop (Z.to_nat off) d).
(** l with the bytes b at position off *)
Definition patch (l : list Z) (off : Z) (b : list Z) : list Z :=
  take (Z.to_nat off) l ++ b ++ drop (Z.to_nat off + length b) l.

(** ** kfiber_net_write_full, kfiber.h:231-241: [buf] is the caller's buffer, [off] how far the pointer buf has
    advanced, [out] what the peer has been sent *)
Fixpoint net_write_full (fuel : nat) (env : nat -> Z -> Z) (k : nat) (buf : list Z) (off len : Z) (out : list Z) : option (bool * Z * list Z) :=
  if decide (len > 0) then
    match fuel with O => None | S fuel =>
      let got := env k len in
      if decide (got <= 0) then Some (false, len, out)
      else net_write_full fuel env (S k) buf (off + got) (len - got) (out ++ slice buf off got)
    end
  else Some (true, len, out).
(** ** Files: contents by position, and the file offset st.offset.  kfiber_file_callback (kfiber.c:566-578) adds the
    result to the offset when positive; the transfer is at the offset (no direct I/O here: see below). *)
Definition file := Z -> Z.
Definition fwrite (f : file) (off : Z) (b : list Z) : file :=
  λ x, if decide (off <= x < off + Z.of_nat (length b)) then nth (Z.to_nat (x - off)) b 0 else f x.
Definition fread (f : file) (off n : Z) : list Z := (λ i : nat, f (off + Z.of_nat i)) <$> seq 0 (Z.to_nat n).
(** ** kfiber_net_read_full, kfiber.h:268-278: [inp] is the stream the peer sends, [pos] how much of it was taken *)
Fixpoint net_read_full (fuel : nat) (env : nat -> Z -> Z) (k : nat) (buf : list Z) (off len : Z) (inp : file) (pos : Z) : option (bool * Z * list Z * Z) :=
  if decide (len > 0) then
    match fuel with O => None | S fuel =>
      let got := env k len in
      if decide (got <= 0) then Some (false, len, buf, pos)
      else net_read_full fuel env (S k) (patch buf off (fread inp pos got)) (off + got) (len - got) inp (pos + got)
    end
  else Some (true, len, buf, pos).
(** kfiber_file_write_full, kfiber.h:292-302 *)
Fixpoint file_write_full (fuel : nat) (env : nat -> Z -> Z) (k : nat) (buf : list Z) (off len : Z) (f : file) (pos : Z) : option (bool * Z * file * Z) :=
  if decide (len > 0) then
    match fuel with O => None | S fuel =>
      let got := env k len in
      if decide (got <= 0) then Some (false, len, f, pos)
      else file_write_full fuel env (S k) buf (off + got) (len - got) (fwrite f pos (slice buf off got)) (pos + got)
    end
  else Some (true, len, f, pos).
(** kfiber_file_read_full, kfiber.h:303-313 *)
Fixpoint file_read_full (fuel : nat) (env : nat -> Z -> Z) (k : nat) (buf : list Z) (off len : Z) (f : file) (pos : Z) : option (bool * Z * list Z * Z) :=
  if decide (len > 0) then
    match fuel with O => None | S fuel =>
      let got := env k len in
      if decide (got <= 0) then Some (false, len, buf, pos)
      else file_read_full fuel env (S k) (patch buf off (fread f pos got)) (off + got) (len - got) f (pos + got)
    end
  else Some (true, len, buf, pos).
(** kfiber_sendfile_full, kfiber.h:197-206; kfiber_result_sendfile, kfiber.c:461-468 *)
Fixpoint sendfile_full (fuel : nat) (env : nat -> Z -> Z) (k : nat) (len : Z) (f : file) (pos : Z) (out : list Z) : option (bool * Z * Z * list Z) :=
  if decide (len > 0) then
    match fuel with O => None | S fuel =>
      let got := env k len in
      if decide (got <= 0) then Some (false, len, pos, out)
      else sendfile_full fuel env (S k) (len - got) f (pos + got) (out ++ fread f pos got)
    end
  else Some (true, len, pos, out).

(** ** kfiber_net_writev_full, kfiber.h:212-230.  An iovec is the list of bytes it still denotes.  None = an
    iovec behind the end of the array is read. *)
Fixpoint advance (v : list (list Z)) (got : Z) : option (list (list Z)) :=
  match v with
  | [] => if decide (got > 0) then None else Some []
  | b :: w =>
    if decide (got > 0) then
      if decide (Z.of_nat (length b) > got) then Some (drop (Z.to_nat got) b :: w)
      else advance w (got - Z.of_nat (length b))
    else Some (b :: w)
  end.
Definition total (v : list (list Z)) : Z := Z.of_nat (length (mjoin v)).
(** outcome: the iovecs left (their number is the final *bc), the result, what was sent *)
Inductive wres := WCrash | WFuel | WDone (left : list (list Z)) (ret : Z) (out : list Z).
Fixpoint writev_full (fuel : nat) (env : nat -> Z -> Z) (k : nat) (v : list (list Z)) (tot : Z) (out : list Z) : wres :=
  match v with
  | [] => WDone [] tot out
  | _ :: _ =>
    match fuel with O => WFuel | S fuel =>
      let got := env k (total v) in
      if decide (got <= 0) then WDone v tot out
      else match advance v got with
        | None => WCrash
        | Some v' => writev_full fuel env (S k) v' (tot + got) (out ++ slice (mjoin v) 0 got)
        end
    end
  end.

(** ** kgl_ssl_writev, kselectable.c:21-61.  [bio]: ENABLE_KSSL_BIO; [early]: ssl->in_early.  One answer of the TLS
    layer: SSL_write -> [env k len]; SSL_write_early_data succeeds with [env k len] bytes if that is positive. *)
Definition fin (got e : Z) : Z := if decide (got > 0) then got else e.
(** the while loop over one buffer: inl = return this value, inr = go on with the next buffer *)
Fixpoint ssl_write1 (fuel : nat) (bio early : bool) (env : nat -> Z -> Z) (k : nat) (b : list Z) (got : Z) (out : list Z) : option ((Z + Z) * nat * list Z) :=
  let len := Z.of_nat (length b) in
  if decide (len > 0) then
    match fuel with O => None | S fuel =>
      let left := 65536 - got in
      if bio && bool_decide (left <= 0) then Some (inl got, k, out) else
      let len := if bio then Z.min left len else len in
      let n := env k len in
      if early then
        if decide (n > 0) then ssl_write1 fuel bio early env (S k) (drop (Z.to_nat n) (slice b 0 len)) (got + n) (out ++ slice b 0 n)
        else Some (inl (fin got (-1)), S k, out)
      else if decide (n = len) then Some (inr (got + n), S k, out ++ slice b 0 n)
      else if decide (n > 0) then Some (inl (got + n), S k, out ++ slice b 0 n)
      else Some (inl (fin got n), S k, out)
    end
  else Some (inr got, k, out).
Fixpoint ssl_writev (bio early : bool) (env : nat -> Z -> Z) (k : nat) (v : list (list Z)) (got : Z) (out : list Z) : option (Z * nat * list Z) :=
  match v with
  | [] => Some (got, k, out)
  | b :: v =>
    match ssl_write1 (S (length b)) bio early env k b got out with
    | None => None
    | Some (inl r, k, out) => Some (r, k, out)
    | Some (inr got, k, out) => ssl_writev bio early env k v got out
    end
  end.
(** ** kgl_ssl_readv, kselectable.c:62-104.  The plaintext is the stream [inp], [pos] how much of it was delivered.
    The state of the session: [pre] = early_preread (the byte early_buf was read ahead: it is the next one of inp),
    [early] = in_early.  Answers in early mode: 0 = FINISH, positive = SUCCESS with that many bytes, negative = error. *)
Fixpoint ssl_read1 (fuel : nat) (env : nat -> bool -> Z -> Z) (k : nat) (pre early : bool) (len : Z) (got : Z) (buf : list Z) (inp : file) (pos : Z)
    : option ((Z + Z) * nat * bool * bool * list Z * Z) :=
  if decide (len > 0) then
    match fuel with O => None | S fuel =>
      if pre then ssl_read1 fuel env k false early (len - 1) (got + 1) (buf ++ fread inp pos 1) inp (pos + 1)
      else let n := env k early len in
      if early then
        if decide (n = 0) then ssl_read1 fuel env (S k) pre false len got buf inp pos
        else if decide (n < 0) then Some (inl got, S k, pre, early, buf, pos)
        else ssl_read1 fuel env (S k) pre early (len - n) (got + n) (buf ++ fread inp pos n) inp (pos + n)
      else if decide (n = len) then Some (inr (got + n), S k, pre, early, buf ++ fread inp pos n, pos + n)
      else if decide (n > 0) then Some (inl (got + n), S k, pre, early, buf ++ fread inp pos n, pos + n)
      else Some (inl (fin got n), S k, pre, early, buf, pos)
    end
  else Some (inr got, k, pre, early, buf, pos).
(** v: the capacities of the buffers; the second component of the result is what each buffer received *)
Fixpoint ssl_readv (env : nat -> bool -> Z -> Z) (k : nat) (pre early : bool) (v : list Z) (got : Z) (inp : file) (pos : Z) (acc : list (list Z))
    : option (Z * list (list Z) * Z) :=
  match v with
  | [] => Some (got, acc, pos)
  | c :: v =>
    match ssl_read1 (S (S (Z.to_nat c))) env k pre early c got [] inp pos with
    | None => None
    | Some (inl r, k, pre, early, b, pos) => Some (r, acc ++ [b], pos)
    | Some (inr got, k, pre, early, b, pos) => ssl_readv env k pre early v got inp pos (acc ++ [b])
    end
  end.

(** ** Direct I/O reads.  [al] = kgl_aio_align_size; kgl_align, kgl_align_floor: kmalloc.h:34-35 *)
Definition align_up (d a : Z) : Z := Z.land (d + (a - 1)) (Z.lnot (a - 1)).
Definition align_floor (d a : Z) : Z := Z.land d (Z.lnot (a - 1)).
Definition u16 (x : Z) : Z := x mod 65536.
Definition i16 (x : Z) : Z := if decide (x mod 65536 < 32768) then x mod 65536 else x mod 65536 - 65536.
(** epoll_selector_aio_read with st.direct_io set: (direct_io_offset, length issued, position issued) *)
Definition direct_window (al off len : Z) : Z * Z * Z :=
  let new_offset := align_floor off al in
  let new_length := align_up len al in
  let new_length := if decide (new_length = 0) then al else new_length in
  let d := u16 (off - new_offset) in
  (d, new_length, off - i16 d).
(** kasync_file_adjust_result: None = the assertion fails *)
Definition adjust_result (d orig got : Z) : option Z :=
  if decide (got > d) then Some (Z.min (got - d) orig) else None.
(** without assertions (NDEBUG) *)
Definition adjust_result_nd (d orig got : Z) : Z := if decide (got < d) then -1 else Z.min (got - d) orig.
(** kfiber_file_read on a direct I/O file of [size] bytes: the kernel reads [got] bytes (its choice) of the file at the
    issued position into the buffer.  Result: value returned, bytes at kfiber_file_adjust(file, buf), new file offset *)
Definition direct_read (al : Z) (f : file) (off len got : Z) (buf : list Z) : option (Z * list Z * Z) :=
  let '(d, n, pos) := direct_window al off len in
  let buf := if decide (0 < got) then patch buf 0 (fread f pos got) else buf in
  match adjust_result d len got with
  | None => None
  | Some r => Some (r, drop (Z.to_nat d) buf, if decide (r > 0) then off + r else off)
  end.
(** what the kernel may return for a read of n bytes at pos of a file of the given size (-1: error) *)
Definition kernel_read_ok (size pos n got : Z) : Prop := got = -1 \/ (0 <= got <= n /\ got <= Z.max 0 (size - pos)).
