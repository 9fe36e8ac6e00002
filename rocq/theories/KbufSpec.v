(** Callers' programs on a krw_buffer / ks_buffer, and the byte-queue specification they are compared with. *)
From Verif Require Export KbufModel.

Section spec.
Context {B : Type}.

(** What a caller does with a krw_buffer.
    - [WriteStr bs]: krw_write_str;  [Append bs]: krw_append of a fresh kbuf holding bs;
    - [Fill bs]: krw_get_write_buffer, copy as much of [bs] as fits in the returned window ( *len bytes ),
      krw_write_success with that number (bs = [] is a reader that got EAGAIN);
    - [Peek n]: krw_get_read_buffers with an array of n+1 iovecs;
    - [Consume n]: if total_len > 0, krw_read_success(min n total_len);
    - [Read n]: krw_read with a buffer of n bytes. *)
Inductive wop := WriteStr (bs : list B) | Fill (bs : list B) | Append (bs : list B)
               | Peek (n : nat) | Consume (n : nat) | Read (n : nat).
Inductive wout := ODone | OFill (k : nat) | OPeek (l : list (list B)) | OSkip | OConsume (k : nat) (more : bool)
                | ORead (bs : list B).

(** run one call; None = assertion failure / undefined behaviour / endless loop *)
Definition wexec (s : krw B) (o : wop) : option (krw B * wout) :=
  match o with
  | WriteStr bs => s ← krw_write_str (length bs) s bs; Some (s, ODone)
  | Fill bs => '(s, w, len) ← krw_get_write_buffer s;
               let d := take (Z.to_nat len) bs in
               s ← poke s w d; s ← krw_write_success s (length d); Some (s, OFill (length d))
  | Append bs => s ← krw_append s bs; Some (s, ODone)
  | Peek n => l ← krw_get_read_buffers s (S n); Some (s, OPeek l)
  | Consume n => if decide (0 < total s)%Z then
                   let k := min n (Z.to_nat (total s)) in
                   '(s, more) ← krw_read_success s k; Some (s, OConsume k more)
                 else Some (s, OSkip)
  | Read n => '(s, bs) ← krw_read n s n []; Some (s, ORead bs)
  end.
(** a whole program: results paired with the total_len field observed after the call *)
Fixpoint wexec_all (s : krw B) (os : list wop) : option (krw B * list (wout * Z)) :=
  match os with
  | [] => Some (s, [])
  | o :: os => '(s, r) ← wexec s o; '(s', rs) ← wexec_all s os; Some (s', (r, total s) :: rs)
  end.

(** specification: a queue of bytes *)
Definition fifo_step (q : list B) (o : wop) (r : wout) (q' : list B) : Prop :=
  match o, r with
  | WriteStr bs, ODone | Append bs, ODone => q' = q ++ bs
  | Fill bs, OFill k => k <= length bs /\ (bs <> [] -> 0 < k) /\ q' = q ++ take k bs
  | Peek n, OPeek l => q' = q /\ length l <= S n /\ concat l `prefix_of` q /\ (length l < S n -> concat l = q)
  | Consume n, OSkip => q = [] /\ q' = []
  | Consume n, OConsume k more => k = min n (length q) /\ q <> [] /\ q' = drop k q /\ (more = false -> q' = [])
  | Read n, ORead bs => q = bs ++ q' /\ length bs <= n
  | _, _ => False
  end.
Fixpoint fifo (q : list B) (os : list wop) (rs : list (wout * Z)) (q' : list B) : Prop :=
  match os, rs with
  | [], [] => q' = q
  | o :: os, (r, t) :: rs => exists q1, fifo_step q o r q1 /\ t = Z.of_nat (length q1) /\ fifo q1 os rs q'
  | _, _ => False
  end.

(** bytes put in / taken out by krw_read, for programs that read only with krw_read *)
Definition bytes_in (x : wop * (wout * Z)) : list B :=
  match x with
  | (WriteStr bs, _) | (Append bs, _) => bs
  | (Fill bs, (OFill k, _)) => take k bs
  | _ => []
  end.
Definition bytes_out (x : wop * (wout * Z)) : list B :=
  match x with (Read _, (ORead bs, _)) => bs | _ => [] end.
Definition not_consume (o : wop) : Prop := match o with Consume _ => False | _ => True end.

(** [tidy e os]: no krw_append of an empty kbuf, and no krw_append while the newest chunk may still be
    empty, i.e. directly after a krw_get_write_buffer that wrote nothing ([e]: such a call is the last
    writing call so far) *)
Fixpoint tidy (e : bool) (os : list wop) : bool :=
  match os with
  | [] => true
  | WriteStr bs :: os => tidy (if is_nil bs then e else false) os
  | Fill bs :: os => tidy (is_nil bs) os
  | Append bs :: os => negb e && negb (is_nil bs) && tidy false os
  | _ :: os => tidy e os
  end.
(** krw_read is exact at every Read of the run *)
Fixpoint exact_reads (q : list B) (os : list wop) (rs : list (wout * Z)) : Prop :=
  match os, rs with
  | o :: os, (r, _) :: rs =>
    (match o, r with Read n, ORead bs => bs = take n q | _, _ => True end)
    /\ (forall q1, fifo_step q o r q1 -> exact_reads q1 os rs)
  | _, _ => True
  end.

(** ** ks_buffer programs.  [KWrite bs]: ks_write_str; [KFill bs]: ks_get_write_buffer, copy as much of bs as
    fits in the returned window, ks_write_success; [KSave h]: ks_save_point with a pointer h bytes into the
    buffer (at most [used]). *)
Inductive kop := KWrite (bs : list B) | KFill (bs : list B) | KSave (h : nat).
Definition kexec (s : ks B) (o : kop) : option (ks B * nat) :=
  match o with
  | KWrite bs => s ← ks_write_str s bs; Some (s, 0)
  | KFill bs => '(s, off, len) ← ks_get_write_buffer 2 s;
                let d := take (Z.to_nat len) bs in
                s ← ks_store s off d; Some (ks_write_success s (length d), length d)
  | KSave h => s ← ks_save_point s (min h (sused s)); Some (s, 0)
  end.
(** results paired with the fields used and buf_size seen after the call *)
Fixpoint kexec_all (s : ks B) (os : list kop) : option (ks B * list (nat * nat * Z)) :=
  match os with
  | [] => Some (s, [])
  | o :: os => '(s, r) ← kexec s o; '(s', rs) ← kexec_all s os; Some (s', (r, sused s, ssize s) :: rs)
  end.
Definition kstep (q : list B) (o : kop) (r : nat) : list B -> Prop := λ q',
  match o with
  | KWrite bs => q' = q ++ bs
  | KFill bs => r <= length bs /\ (bs <> [] -> 0 < r) /\ q' = q ++ take r bs
  | KSave h => q' = drop h q
  end.
Fixpoint kspec (q : list B) (os : list kop) (rs : list (nat * nat * Z)) (q' : list B) : Prop :=
  match os, rs with
  | [], [] => q' = q
  | o :: os, (r, used, size) :: rs =>
      exists q1, kstep q o r q1 /\ used = length q1 /\ (Z.of_nat used <= size)%Z /\ kspec q1 os rs q'
  | _, _ => False
  end.
(** reading: for each n: ks_get_read_buffer, then ks_read_success(min n window) *)
Fixpoint kread (s : ks B) (ns : list nat) : option (list (list B * bool)) :=
  match ns with
  | [] => Some []
  | n :: ns => w ← ks_get_read_buffer s; '(s, more) ← ks_read_success s (min n (length w));
               l ← kread s ns; Some ((w, more) :: l)
  end.
Fixpoint kread_spec (q : list B) (ns : list nat) : list (list B * bool) :=
  match ns with
  | [] => []
  | n :: ns => (q, negb (is_nil (drop n q))) :: kread_spec (drop n q) ns
  end.
End spec.
Arguments wop : clear implicits.
Arguments wout : clear implicits.
Arguments kop : clear implicits.
