(** Specification of C64 on the history of calls.  Independent of the model's state, apart from the names of the history events. *)
From Verif Require Import AioModel.
Local Open Scope Z_scope.

(** the position of file [f]: the last seek, moved by the successful reads and writes that returned since *)
Definition pos1 (f : nat) (p : Z) (h : hev) : Z :=
  match h with
  | HSeek f' q => if decide (f' = f) then q else p
  | HRet _ _ f' r _ => if decide (f' = f) then p + Z.max 0 r else p
  | _ => p
  end.
Definition pos (f : nat) (h : list hev) : Z := fold_left (pos1 f) h 0.
(** the contents of file [f] *)
Definition cont1 (f : nat) (c : list Z) (h : hev) : list Z :=
  match h with HExec _ f' _ _ after => if decide (f' = f) then after else c | _ => c end.
Definition contents (c0 : list Z) (f : nat) (h : list hev) : list Z := fold_left (cont1 f) h c0.
Definition accepted (h : list hev) : list nat := omap (λ x, match x with HCall id _ _ _ _ _ _ true => Some id | _ => None end) h.
Definition called (h : list hev) : list nat := omap (λ x, match x with HCall id _ _ _ _ _ _ _ => Some id | _ => None end) h.
Definition executed (h : list hev) : list nat := omap (λ x, match x with HExec id _ _ _ _ => Some id | _ => None end) h.
Definition returned (h : list hev) : list nat := omap (λ x, match x with HRet id _ _ _ _ => Some id | _ => None end) h.
(** the bytes [n] long at [off] of [c] *)
Definition slice (c : list Z) (off n : Z) : list Z := take (Z.to_nat n) (drop (Z.to_nat off) c).
(** direct reads start at the block boundary before the position; [gap] bytes before the position are read in vain *)
Definition gap (A : Z) (wr : option (list Z)) (off : Z) (dir : bool) : Z :=
  match wr with None => if dir then off mod A else 0 | Some _ => 0 end.
(** what the kernel did for the call: on success, a read of the file from the boundary on, a write of the first [res] bytes at the position *)
Definition kernel_did (A : Z) (wr : option (list Z)) (off : Z) (dir : bool) (res : Z) (before after : list Z) : Prop :=
  match wr with
  | None => after = before /\ (0 <= res -> gap A wr off dir <= off /\ off - gap A wr off dir + res <= Z.of_nat (length before) \/ res = 0)
  | Some d => (res <= 0 -> after = before) /\ (0 < res -> 0 <= off /\ res <= Z.of_nat (length d) /\ after = overwrite before (Z.to_nat off) (take (Z.to_nat res) d))
  end.
(** what the caller gets: failure if the kernel failed or did not get past the gap; else the number of bytes from the position on,
    at most what was asked for, and for a read these bytes of the file *)
Definition result_ok (A : Z) (wr : option (list Z)) (off : Z) (len : nat) (dir : bool) (res : Z) (before : list Z) (r : Z) (bytes : list Z) : Prop :=
  let g := gap A wr off dir in
  (res < g -> r < 0) /\
  (g <= res -> r = Z.min (res - g) (Z.of_nat len)) /\
  (wr = None -> Z.of_nat (length bytes) = Z.max 0 r /\ (0 < r -> 0 <= off /\ bytes = slice before off r)).

(** what the program has to do: one operation at a time per file (also for seek and for switching direct I/O), until it has taken the
    result; with assertions compiled in, direct operations use aligned buffers, direct writes aligned positions, and the kernel's result for
    a direct operation is past the gap (no end of file, no error) *)
Definition busy (s : sys) (f : nat) : Prop := exists t id, fib s t = FWait id f \/ exists r, fib s t = FReady id f r.
Definition duty (A : Z) (nd : bool) (s : sys) (e : aev) : Prop :=
  match e with
  | ARead t f len al ok => ~ busy s f /\ (nd = false -> fdir (fls s f) = true -> al = true)
  | AWrite t f d al ok => ~ busy s f /\ (nd = false -> fdir (fls s f) = true -> al = true /\ foff (fls s f) = aup A (foff (fls s f)))
  | ASeek t f _ _ | ADirect t f _ _ => ~ busy s f
  | KExec i k => forall o, infl s !! i = Some o -> nd = false -> fdir (fls s (i_file o)) = true -> fdoff (fls s (i_file o)) < Z.of_nat k
  | KFail i _ => forall o, infl s !! i = Some o -> nd = false -> fdir (fls s (i_file o)) = false
  | _ => True
  end.
Fixpoint keeps (A : Z) (nd : bool) (s : sys) (es : list aev) : Prop :=
  match es with
  | [] => True
  | e :: es => duty A nd s e /\ match astep A nd s e with Ok s' _ => keeps A nd s' es | _ => True end
  end.
