(** Executable model of the chunked buffer krw_buffer (src/kbuf.c:19-197), the flat buffer ks_buffer
    (src/kbuf.c:198-258, include/kbuf.h:70-151) and the two seek helpers (include/kbuf.h:167-191).

    Simplifications:
    - the chain head->next->... is a list of chunks; a kbuf pointer is the chunk's id, a char pointer
      into chunk data is (id, offset), NULL is None.  Storing x in p->next cuts the chain behind p and
      appends x; a pointer that is not in the chain makes the operation undefined (None).
    - a memory byte is [option B]: None = never written.  Loads of such bytes are undefined.
    - kassert failures are None (undefined).
    - xmalloc never fails and returns a fresh id ([nid] is the allocator's counter).
    - C ints are unbounded; lengths passed by callers are natural numbers. *)
From stdpp Require Export prelude.
From Coq Require Export ZArith.

Section kbuf.
Context {B : Type}.

(** struct kbuf_s (include/kfeature.h): data, used, next, flags *)
Record chunk := mkc { cid : positive; cmem : list (option B); cused : nat }.
(** include/kbuf.h:52-59 krw_buffer *)
Record krw := mkrw {
  ch : list chunk;                 (* chain starting at head; [] = head == NULL *)
  whb : option positive;           (* write_hot_buf *)
  rh : option (positive * nat);    (* read_hot *)
  wh : option (positive * nat);    (* write_hot *)
  total : Z;                       (* total_len *)
  csize : nat;                     (* chunk_size *)
  nid : positive }.                (* ghost: allocator *)

Definition is_nil {A} (l : list A) : bool := match l with [] => true | _ => false end.
Definition guard_b (b : bool) : option unit := if b then Some () else None.

(** src/kbuf.c:63-66 krw_buffer_init *)
Definition krw_init (n : nat) (id : positive) : krw := mkrw [] None None None 0 n id.

(** p->next = c : the chain is cut behind p *)
Fixpoint set_next (p : positive) (c : chunk) (l : list chunk) : option (list chunk) :=
  match l with
  | [] => None
  | x :: l => if decide (cid x = p) then Some [x; c] else l' ← set_next p c l; Some (x :: l')
  end.
(** access to *p for a chunk pointer p *)
Fixpoint get_chunk (p : positive) (l : list chunk) : option chunk :=
  match l with [] => None | x :: l => if decide (cid x = p) then Some x else get_chunk p l end.
Fixpoint set_chunk (p : positive) (f : chunk -> option chunk) (l : list chunk) : option (list chunk) :=
  match l with
  | [] => None
  | x :: l => if decide (cid x = p) then x' ← f x; Some (x' :: l) else l' ← set_chunk p f l; Some (x :: l')
  end.

(** the caller's kbuf: fully written data of [bs], used = length (a fresh object) *)
Definition user_chunk (id : positive) (bs : list B) : chunk := mkc id (Some <$> bs) (length bs).
(** src/kbuf.c:67-74 krw_newbuff *)
Definition new_chunk (id : positive) (n : nat) : chunk := mkc id (replicate n None) 0.

(** src/kbuf.c:19-32 krw_append *)
Definition krw_append (s : krw) (bs : list B) : option krw :=
  let c := user_chunk (nid s) bs in
  '(ch', rh') ← match whb s with
    | None => _ ← guard_b (is_nil (ch s)) ; _ ← guard_b (bool_decide (rh s = None));
              Some ([c], Some (cid c, 0))
    | Some p => _ ← rh s; _ ← head (ch s); l ← set_next p c (ch s); Some (l, rh s)
    end;
  Some (mkrw ch' (Some (cid c)) rh' None (total s + Z.of_nat (length bs))%Z (csize s) (Pos.succ (nid s))).

(** src/kbuf.c:33-44 krw_insert *)
Definition krw_insert (s : krw) (bs : list B) : option krw :=
  match ch s with
  | [] => _ ← guard_b (bool_decide (whb s = None)); krw_append s bs
  | _ => let c := user_chunk (nid s) bs in
         _ ← whb s;
         Some (mkrw (c :: ch s) (whb s) (Some (cid c, 0)) (wh s) (total s + Z.of_nat (length bs))%Z (csize s) (Pos.succ (nid s)))
  end.

(** bytes [off, off+len) of a chunk's data, all of which must have been written *)
Definition load (c : chunk) (off len : nat) : option (list B) :=
  _ ← guard_b (bool_decide (off + len <= length (cmem c)));
  mapM id (take len (drop off (cmem c))).
(** memcpy into chunk data at [off] *)
Definition store (off : nat) (bs : list B) (c : chunk) : option chunk :=
  _ ← guard_b (bool_decide (off + length bs <= length (cmem c)));
  Some (mkc (cid c) (take off (cmem c) ++ (Some <$> bs) ++ drop (off + length bs) (cmem c)) (cused c)).

(** read_hot - head->data and what is left in the head chunk *)
Definition head_off (s : krw) : option (chunk * nat) :=
  c ← head (ch s);
  '(p, off) ← rh s;
  _ ← guard_b (bool_decide (p = cid c)); _ ← guard_b (bool_decide (off <= cused c));
  Some (c, off).

(** src/kbuf.c:75-93 krw_get_read_buffers: the byte strings denoted by the returned iovecs *)
Definition krw_get_read_buffers (s : krw) (n : nat) : option (list (list B)) :=
  match rh s with
  | None => Some []
  | Some _ =>
    '(c, off) ← head_off s;
    b0 ← load c off (cused c - off);
    bs ← mapM (λ c, load c 0 (cused c)) (take (n - 1) (tail (ch s)));
    Some (b0 :: bs)
  end.
(** src/kbuf.c:94-102 krw_get_read_buffer *)
Definition krw_get_read_buffer (s : krw) : option (option (list B)) :=
  l ← krw_get_read_buffers s 1; Some (head l).

(** src/kbuf.c:105-122, the while loop of krw_read_success on the chain [l] with read_hot at [off] of the
    first chunk; result: remaining chain, offset, bytes taken off total_len *)
Fixpoint consume (got : nat) (l : list chunk) (off : nat) : option (list chunk * nat * nat) :=
  match got with O => Some (l, off, 0) | S _ =>
  match l with
  | [] => None
  | c :: l =>
    _ ← guard_b (bool_decide (off <= cused c));
    let this := min got (cused c - off) in
    if decide (cused c = off + this) then
      (* the chunk is exhausted and freed *)
      match l with
      | [] => Some ([], 0, this)
      | _ => '(l', off', k) ← consume (got - this) l 0; Some (l', off', this + k)
      end
    else Some (c :: l, off + this, this)   (* then got - this = 0 *)
  end end.
(** src/kbuf.c:103-124 krw_read_success *)
Definition krw_read_success (s : krw) (got : nat) : option (krw * bool) :=
  _ ← rh s; _ ← head (ch s);
  '(_, off) ← head_off s;
  '(l, off', k) ← consume got (ch s) off;
  match l with
  | [] => _ ← guard_b (bool_decide (total s - Z.of_nat k = 0)%Z); Some (krw_init (csize s) (nid s), false)
  | c :: _ => Some (mkrw l (whb s) (Some (cid c, off')) (wh s) (total s - Z.of_nat k)%Z (csize s) (nid s), true)
  end.

(** src/kbuf.c:125-144 krw_get_write_buffer: new state, write pointer, *len *)
Definition krw_get_write_buffer (s : krw) : option (krw * (positive * nat) * Z) :=
  s ← match whb s with
      | None => _ ← guard_b (is_nil (ch s));
                let c := new_chunk (nid s) (csize s) in
                Some (mkrw [c] (Some (cid c)) (Some (cid c, 0)) (Some (cid c, 0)) (total s) (csize s) (Pos.succ (nid s)))
      | Some _ => Some s
      end;
  p ← whb s;
  c ← get_chunk p (ch s);
  let len := (Z.of_nat (csize s) - Z.of_nat (cused c))%Z in
  '(s, len) ← (if bool_decide (len = 0%Z) || bool_decide (wh s = None) then
                 let n := new_chunk (nid s) (csize s) in
                 _ ← guard_b (bool_decide ((cid <$> last (ch s)) = Some p));   (* kassert(write_hot_buf->next == NULL) *)
                 l ← set_next p n (ch s);
                 Some (mkrw l (Some (cid n)) (rh s) (Some (cid n, 0)) (total s) (csize s) (Pos.succ (nid s)), Z.of_nat (csize s))
               else Some (s, len));
  _ ← guard_b (bool_decide (0 < len)%Z);
  w ← wh s;
  Some (s, w, len).

(** the caller's copy through the pointer returned by krw_get_write_buffer *)
Definition poke (s : krw) (w : positive * nat) (bs : list B) : option krw :=
  l ← set_chunk w.1 (store w.2 bs) (ch s);
  Some (mkrw l (whb s) (rh s) (wh s) (total s) (csize s) (nid s)).

(** src/kbuf.c:145-150 krw_write_success *)
Definition krw_write_success (s : krw) (got : nat) : option krw :=
  p ← whb s;
  l ← set_chunk p (λ c, Some (mkc (cid c) (cmem c) (cused c + got))) (ch s);
  '(q, off) ← wh s;
  Some (mkrw l (whb s) (rh s) (Some (q, off + got)) (total s + Z.of_nat got)%Z (csize s) (nid s)).

(** src/kbuf.c:151-162 krw_write_str *)
Fixpoint krw_write_str (fuel : nat) (s : krw) (bs : list B) : option krw :=
  match bs with [] => Some s | _ =>
  match fuel with O => None | S fuel =>
  '(s, w, len) ← krw_get_write_buffer s;
  let wlen := min (length bs) (Z.to_nat len) in
  s ← poke s w (take wlen bs);
  s ← krw_write_success s wlen;
  krw_write_str fuel s (drop wlen bs)
  end end.

(** src/kbuf.c:175-197 krw_read: new state and the bytes copied out *)
Fixpoint krw_read (fuel : nat) (s : krw) (len : nat) (acc : list B) : option (krw * list B) :=
  match len with O => Some (s, acc) | S _ =>
  match fuel with O => None | S fuel =>
  r ← krw_get_read_buffer s;
  match r with
  | None => Some (s, [])                        (* return 0 *)
  | Some d =>
    let d := take len d in
    if decide (length d <= 0) then Some (s, acc) else
    '(s, more) ← krw_read_success s (length d);
    if (more : bool) then krw_read fuel s (len - length d) (acc ++ d) else Some (s, acc ++ d)
  end end end.

(** ** ks_buffer: include/kbuf.h:61-66.  [smem] is the allocation (buf), ssize = buf_size *)
Record ks := mkks { smem : list (option B); ssize : Z; sused : nat }.

(** include/kmalloc.h:35 kgl_align(d, 1024) = (d + 1023) & ~1023 *)
Definition align1024 (d : Z) : Z := Z.land (d + 1023) (Z.lnot 1023).

(** include/kbuf.h:74-78 ks_buffer_init *)
Definition ks_init (n : nat) : ks := mkks (replicate n None) (Z.of_nat n) 0.

(** xmalloc(new) ; memcpy(n, buf, used) ; the old block is freed *)
Definition ks_realloc (s : ks) (new : Z) : option ks :=
  _ ← guard_b (bool_decide (sused s <= length (smem s)));
  _ ← guard_b (bool_decide (Z.of_nat (sused s) <= new)%Z);
  Some (mkks (take (sused s) (smem s) ++ replicate (Z.to_nat new - sused s) None) new (sused s)).
(** src/kbuf.c:198-213 ks_guarantee *)
Definition ks_guarantee (s : ks) (len : nat) : option ks :=
  if bool_decide (Z.of_nat (sused s + len) <= ssize s)%Z then Some s
  else ks_realloc s (align1024 (Z.of_nat (sused s + len))).
Definition ks_store (s : ks) (off : nat) (bs : list B) : option ks :=
  _ ← guard_b (bool_decide (off + length bs <= length (smem s)));
  Some (mkks (take off (smem s) ++ (Some <$> bs) ++ drop (off + length bs) (smem s)) (ssize s) (sused s)).
(** src/kbuf.c:214-221 ks_write_str *)
Definition ks_write_str (s : ks) (bs : list B) : option ks :=
  s ← ks_guarantee s (length bs);
  s ← ks_store s (sused s) bs;
  Some (mkks (smem s) (ssize s) (sused s + length bs)).
(** include/kbuf.h:99-114 ks_get_write_buffer: state, offset of the window, its length; [fuel] counts the
    "goto retry" rounds *)
Fixpoint ks_get_write_buffer (fuel : nat) (s : ks) : option (ks * nat * Z) :=
  match fuel with O => None | S fuel =>
  _ ← guard_b (bool_decide (0 < ssize s)%Z);
  let len := (ssize s - Z.of_nat (sused s))%Z in
  if bool_decide (0 < len)%Z then Some (s, sused s, len)
  else s ← ks_realloc s (align1024 (ssize s * 2)); ks_get_write_buffer fuel s
  end.
(** include/kbuf.h:83-85 ks_write_success *)
Definition ks_write_success (s : ks) (got : nat) : ks := mkks (smem s) (ssize s) (sused s + got).
(** include/kbuf.h:115-137 ks_save_point; [hot] is the offset of the pointer in buf.  (The second assert
    of the source, hot_left < used, is implied by hot > buf.) *)
Definition ks_save_point (s : ks) (hot : nat) : option ks :=
  _ ← guard_b (bool_decide (0 < ssize s)%Z);
  if decide (hot = 0) then
    if bool_decide (Z.of_nat (sused s) = ssize s) then ks_realloc s (ssize s * 2) else Some s
  else
    _ ← guard_b (bool_decide (hot <= sused s)); _ ← guard_b (bool_decide (0 < sused s));
    let left := sused s - hot in
    _ ← guard_b (bool_decide (sused s <= length (smem s)));
    Some (mkks (take left (drop hot (smem s)) ++ drop left (smem s)) (ssize s) left).
(** include/kbuf.h:138-142 ks_buffer_switch_read *)
Definition ks_switch_read (s : ks) : ks := mkks (smem s) (Z.of_nat (sused s)) 0.
(** src/kbuf.c:248-252 ks_get_read_buffers: the bytes of the window buf+used .. buf_size *)
Definition ks_get_read_buffer (s : ks) : option (list B) :=
  _ ← guard_b (bool_decide (Z.of_nat (sused s) <= ssize s)%Z); _ ← guard_b (bool_decide (ssize s <= Z.of_nat (length (smem s)))%Z);
  mapM id (take (Z.to_nat (ssize s) - sused s) (drop (sused s) (smem s))).
(** src/kbuf.c:243-247 ks_read_success *)
Definition ks_read_success (s : ks) (got : nat) : option (ks * bool) :=
  let s := mkks (smem s) (ssize s) (sused s + got) in
  _ ← guard_b (bool_decide (Z.of_nat (sused s) <= ssize s)%Z);
  Some (s, bool_decide (Z.of_nat (sused s) < ssize s)%Z).

(** ** seeks *)
(** include/kbuf.h:167-179 kbuf_seek; a chain is the list of its chunks' bytes.  None = head becomes NULL and
    is dereferenced. *)
Fixpoint kbuf_seek (head : list (list B)) (offset : nat) : option (list (list B)) :=
  match offset with O => Some head | _ =>
  match head with
  | [] => None
  | c :: next => if decide (offset < length c) then Some (drop offset c :: next)
                 else kbuf_seek next (offset - length c)
  end end.
(** include/kbuf.h:180-191 kgl_iovec_seek: array of iovecs (bytes) and *bc; result array suffix and new *bc.
    Reading buf-> past the end of the array is undefined. *)
Fixpoint kgl_iovec_seek (buf : list (list B)) (bc : Z) (offset : nat) : option (list (list B) * Z) :=
  match offset with O => Some (buf, bc) | _ =>
  match buf with
  | [] => None
  | c :: rest => if decide (offset < length c) then Some (drop offset c :: rest, bc)
                 else kgl_iovec_seek rest (bc - 1) (offset - length c)
  end end.
End kbuf.
Arguments chunk : clear implicits.
Arguments krw : clear implicits.
Arguments ks : clear implicits.
