(** The selector manager, /repo/src/kselector_manager.c: number of selectors, choice of a selector, idle timeouts. *)
From stdpp Require Import prelude.
From Coq Require Import ZArith Lia.
Local Open Scope Z_scope.

(** signed 32-bit arithmetic as two's complement wrap-around (in C overflow of int is undefined; gcc/clang wrap) *)
Definition i32 (z : Z) : Z := (z + 2 ^ 31) mod 2 ^ 32 - 2 ^ 31.
Definition u32 (z : Z) : Z := z mod 2 ^ 32.

(** kgl_pow2, kselector_manager.c:226-242: [n] iterations are left, the next one has loop variable [i] *)
Fixpoint pow2_loop (n : nat) (i size result : Z) : Z :=
  match n with
  | O => result
  | S n => let result := Z.shiftl 1 i in
           if decide (result = size) then result
           else if decide (result > size) then Z.quot result 2
           else pow2_loop n (i + 1) size result
  end.
Definition kgl_pow2 (size : Z) (max_bits : nat) : Z :=
  let result := pow2_loop max_bits 0 size 0 in if decide (result = 0) then 1 else result.

(** one selector: the two idle timeouts of kselector.h:116 that the manager sets (KGL_LIST_CONNECT, KGL_LIST_RW), in msec *)
Record sel := Sel { t_conn : Z; t_rw : Z }.
(** the globals kgl_selectors, kgl_selector_count, kgl_selector_hash, kgl_selector_index: kselector_manager.c:29-32 *)
Record mgr := Mgr { sels : list sel; count : Z; hash : Z; index : Z }.

(** kselector_new, kselector.c:93-95: every timeout starts as 60 seconds *)
Definition sel_new : sel := Sel 60000 60000.
(** selector_set_time_out, kselector_manager.c:296-304, on both lists; selector_manager_set_timeout :305-312 *)
Definition clamp (msec : Z) : Z := if decide (msec <= 0) then 60000 else msec.
Definition set_timeout (m : mgr) (conn rw : Z) : mgr :=
  let conn := if decide (conn <= 0) then rw else conn in
  let c := clamp (i32 (conn * 1000)) in let r := clamp (i32 (rw * 1000)) in
  Mgr ((λ _, Sel c r) <$> sels m) (count m) (hash m) (index m).
(** selector_manager_init, kselector_manager.c:268-284 (up to the set_timeout call; on_ready_list below) *)
Definition mgr_init (size : Z) : mgr :=
  let n := kgl_pow2 size 7 in set_timeout (Mgr (replicate (Z.to_nat n) sel_new) n (u32 (n - 1)) 0) 60 60.
(** selector_manager_grow, kselector_manager.c:243-267; [own] = called by the thread of selector 0.  The module-name
    test is true once kasync_init ran; kgl_realloc is assumed to succeed. *)
Definition grow (m : mgr) (own : bool) (new_size : Z) : mgr * bool :=
  let n := kgl_pow2 new_size 7 in
  if decide (n <= count m) then (m, false)
  else if bool_decide (count m > 1) || negb own then (m, false)
  else (Mgr (sels m ++ replicate (Z.to_nat (n - count m)) sel_new) n (u32 (n - 1)) (index m), true).

(** get_selector_by_index, kselector_manager.c:326-329: the array position that is read ([index] is an int converted
    to unsigned) *)
Definition by_index (m : mgr) (ix : Z) : Z := Z.land (u32 ix) (hash m).
(** get_perfect_selector, kselector_manager.c:330-343.  [rd k p] is the value the k-th read of a load finds in
    selector p (the loads are volatile and written by other threads).  None = kassert(false). *)
Fixpoint perfect_loop (n : nat) (hash : Z) (rd : nat -> Z -> Z) (k : nat) (i : Z) : option (Z * Z) :=
  match n with
  | O => None
  | S n => let p := Z.land i hash in let q := Z.land (u32 (i + 1)) hash in
           if decide (rd k p < i32 (rd (S k) q + 64)) then Some (p, u32 (i + 1))
           else perfect_loop n hash rd (S (S k)) (u32 (i + 1))
  end.
Definition get_perfect (m : mgr) (rd : nat -> Z -> Z) : option (Z * mgr) :=
  match perfect_loop (Z.to_nat (count m)) (hash m) rd 0 (index m) with
  | None => None
  | Some (p, ix) => Some (p, Mgr (sels m) (count m) (hash m) ix)
  end.

(** operations of the program on the manager *)
Inductive mop := MTimeout (conn rw : Z) | MGrow (own : bool) (size : Z) | MPerfect (rd : nat -> Z -> Z).
(** Ok state, or None for the failed assertion *)
Definition mstep (m : mgr) (o : mop) : option mgr :=
  match o with
  | MTimeout c r => Some (set_timeout m c r)
  | MGrow own n => Some (fst (grow m own n))
  | MPerfect rd => snd <$> get_perfect m rd
  end.
Fixpoint mrun (m : mgr) (os : list mop) : option mgr :=
  match os with [] => Some m | o :: os => match mstep m o with None => None | Some m => mrun m os end end.
