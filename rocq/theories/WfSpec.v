(** Specification of C72 on the history of calls.  Independent of the model's state, apart from the names of the history events. *)
From Verif Require Import WfModel.
Local Open Scope Z_scope.

(** the position of handle [f]: the last seek (or 0 at the opening), moved by the successful transfers since *)
Definition pos1 (f : nat) (p : Z) (h : hev) : Z :=
  match h with
  | HOpen _ f' _ => if decide (f' = f) then 0 else p
  | HSeek f' q => if decide (f' = f) then q else p
  | HExec _ f' _ _ res _ _ _ => if decide (f' = f) then p + Z.max 0 res else p
  | _ => p
  end.
Definition pos (f : nat) (h : list hev) : Z := fold_left (pos1 f) h 0.
(** the contents of file [i] *)
Definition cont1 (i : nat) (c : list Z) (h : hev) : list Z :=
  match h with HExec _ _ i' _ _ _ after _ => if decide (i' = i) then after else c | _ => c end.
Definition contents (c0 : list Z) (i : nat) (h : list hev) : list Z := fold_left (cont1 i) h c0.
(** the fiber that opened handle [f] and the file behind it, while it is open *)
Definition own1 (f : nat) (x : option (nat * nat)) (h : hev) : option (nat * nat) :=
  match h with
  | HOpen t f' i => if decide (f' = f) then Some (t, i) else x
  | HClose f' => if decide (f' = f) then None else x
  | _ => x
  end.
Definition owner (f : nat) (h : list hev) : option (nat * nat) := fold_left (own1 f) h None.
Definition called (h : list hev) : list nat := omap (λ x, match x with HCall id _ _ _ _ _ _ _ => Some id | _ => None end) h.
Definition returned (h : list hev) : list nat := omap (λ x, match x with HRet id _ _ _ _ _ => Some id | _ => None end) h.
(** a call that has not returned *)
Definition open_call (id t f : nat) (h : list hev) : Prop :=
  (exists wr len full off, HCall id t f wr len full true off ∈ h) /\ id ∉ returned h.
Definition busy (f : nat) (h : list hev) : Prop := exists id t, open_call id t f h.

(** the system calls made for call [id] *)
Record xfer := mkx { x_f : nat; x_i : nat; x_off : Z; x_res : Z; x_before : list Z; x_after : list Z; x_got : list Z }.
Definition xfers (id : nat) (h : list hev) : list xfer :=
  omap (λ x, match x with HExec id' f i off res b a g => if decide (id' = id) then Some (mkx f i off res b a g) else None | _ => None end) h.
(** the bytes [n] long at [off] of [c] *)
Definition slice (c : list Z) (off n : Z) : list Z := take (Z.to_nat n) (drop (Z.to_nat off) c).
(** one pread of at most [len] bytes at [off] / one pwrite of the bytes [d] at [off] *)
Definition sys_ok (wr : option (list Z)) (len : nat) (off : Z) (x : xfer) : Prop :=
  x_off x = off /\ x_res x <= Z.of_nat len /\
  match wr with
  | None => x_after x = x_before x /\ x_got x = slice (x_before x) off (x_res x) /\ Z.of_nat (length (x_got x)) = Z.max 0 (x_res x)
  | Some d => x_got x = [] /\ (x_res x <= 0 -> x_after x = x_before x) /\
      (0 < x_res x -> 0 <= off /\ x_after x = overwrite (x_before x) (Z.to_nat off) (take (Z.to_nat (x_res x)) d))
  end.
(** system calls one after the other, each for the rest the ones before have left *)
Fixpoint seq_ok (wr : option (list Z)) (len : nat) (off : Z) (xs : list xfer) : Prop :=
  match xs with
  | [] => True
  | x :: xs => sys_ok wr len off x /\ (xs <> [] -> 0 < x_res x) /\
      seq_ok (drop (Z.to_nat (x_res x)) <$> wr) (len - Z.to_nat (x_res x)) (off + Z.max 0 (x_res x)) xs
  end.
Definition total (xs : list xfer) : nat := sum_list ((λ x, Z.to_nat (x_res x)) <$> xs).
(** what a call for [len] bytes at position [off] returns after the system calls [xs]: a single read or write, the result of its one
    system call; a _full call, true iff everything was transferred, otherwise it ended with a system call that transferred nothing *)
Definition ret_ok (wr : option (list Z)) (len : nat) (full : bool) (off : Z) (xs : list xfer) (r : Z) (rem : nat) (bytes : list Z) : Prop :=
  seq_ok wr len off xs /\ (total xs + rem = len)%nat /\
  bytes = match wr with None => concat (x_got <$> xs) | Some _ => [] end /\
  if full then (r = 1 /\ rem = 0%nat) \/ (r = 0 /\ (0 < rem)%nat /\ exists ys y, xs = ys ++ [y] /\ x_res y <= 0)
  else exists x, xs = [x] /\ r = x_res x.

(** what the program has to do: use open handles only, one call at a time per handle (closing and seeking too), and the calls other than
    kfiber_file_safe_read and kfiber_file_safe_write_full only on the thread of the fiber that opened the handle *)
Definition duty (home : nat -> nat) (s : sys) (e : wev) : Prop :=
  match e with
  | EClose t f | ESeek t f _ _ | ETell t f | ESafe t f _ _ _ => owner f (hist s) <> None /\ ~ busy f (hist s)
  | ECall t f _ _ _ => ~ busy f (hist s) /\ exists t0 i, owner f (hist s) = Some (t0, i) /\ home t0 = home t
  | _ => True
  end.
Fixpoint keeps (home : nat -> nat) (maxw : nat) (s : sys) (es : list wev) : Prop :=
  match es with
  | [] => True
  | e :: es => duty home s e /\ match wstep home maxw s e with Ok s' _ => keeps home maxw s' es | _ => True end
  end.
