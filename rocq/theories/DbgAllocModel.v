(** Model of the debugging allocator that replaces malloc, calloc, realloc and free: src/kmalloc_debug.c:42-320 (MALLOCDEBUG, not
    Windows, not jemalloc), with and without ENABLE_FREE_MEMORY_CHECK ([delay]).

    Memory is byte addressed; the C library underneath hands out any block of unmapped bytes.  One step = one critical section under
    malloc_mutex[i] together with the private work of the thread around it; any number of threads.  Simplified: a bucket's chain of
    new_ptr_list_t is a list (newest first) and the memory of the chain nodes themselves is not in the heap; the traceback is left out;
    the C library's own allocation does not fail (the code aborts if it does); posix_memalign blocks are blocks of the C library. *)
From Verif Require Export Lts.
Local Open Scope Z_scope.

(** memory: the byte at an address, None = not mapped *)
Definition mem_t := Z -> option Z.
(** [n] bytes from [x] on *)
Definition fill (x n : Z) (g : Z -> option Z) (m : mem_t) : mem_t := λ y, if decide (x <= y < x + n) then g (y - x) else m y.
Definition unmap (x n : Z) (m : mem_t) : mem_t := fill x n (λ _, None) m.
Definition setb (x v : Z) (m : mem_t) : mem_t := fill x 1 (λ _, Some v) m.
Definition upd {K A} `{EqDecision K} (g : K -> A) (k : K) (v : A) : K -> A := λ x, if decide (x = k) then v else g x.
(** 42-43: the magic bytes; the value for an index outside is never used *)
Definition start_magic (i : Z) : Z := default 0 ([0x12; 0x56; 0xdc; 0x78; 0xef; 0x34; 0x45; 0xc3] !! Z.to_nat i).
Definition end_magic (i : Z) : Z := default 0 ([0xc3; 0x45; 0x34; 0xef; 0x78; 0xdc; 0x56; 0x12] !! Z.to_nat i).
(** new_ptr_list_t: user_addr, size *)
Record rec := mkr { ru : Z; rn : Z }.
#[global] Instance rec_dec : EqDecision rec. Proof. solve_decision. Defined.
(** a thread inside realloc: before line 215 with old_ptr and the new block; before line 251 with the new block, [z]: called by calloc,
    [re]: called with an old_ptr *)
Inductive tpc := TIdle | TCopy (p : Z) (r : rec) | TIns (r : rec) (z re : bool).
(** the thread inside dump_memory_leak: not there; at bucket [i] with ptr = None / Some user_addr, [c] counted; the saved malloc_started *)
Inductive dpc := DOff | DAt (i : nat) (ptr : option Z) (c : nat) (saved : bool).
(** history: malloc/calloc (n bytes) returned q; realloc made q from p; p freed; byte written; a delayed block released.  [trk]: with the
    debugging header, otherwise a block of the C library, whose contents are [junk] *)
Inductive hev :=
| HMalloc (t : nat) (n : Z) (z : bool) (q : Z) (trk : bool) (junk : Z -> Z)
| HRealloc (t : nat) (p n q : Z) (trk : bool) (junk : Z -> Z)
| HFree (p : Z)
| HPoke (x v : Z)
| HDrop (p n : Z).
Record sys := mks {
  mem : mem_t; blk : Z -> option Z;          (* the bytes; the blocks of the C library: base -> length *)
  tab : nat -> list rec; d1 : nat -> list rec; d2 : nat -> list rec;   (* new_ptr_list, delay_freed1, delay_freed2 *)
  thr : nat -> tpc; started : bool; dmp : dpc; hist : list hev }.
Definition set_thr g s := mks (mem s) (blk s) (tab s) (d1 s) (d2 s) g (started s) (dmp s) (hist s).
Definition set_mb m b s := mks m b (tab s) (d1 s) (d2 s) (thr s) (started s) (dmp s) (hist s).
Definition set_dmp d st s := mks (mem s) (blk s) (tab s) (d1 s) (d2 s) (thr s) st d (hist s).
Definition set_tab g s := mks (mem s) (blk s) g (d1 s) (d2 s) (thr s) (started s) (dmp s) (hist s).
Definition log h s := mks (mem s) (blk s) (tab s) (d1 s) (d2 s) (thr s) (started s) (dmp s) (hist s ++ h).

Inductive ev :=
| EStart                                           (* start_hook_alloc, 112-134 *)
| EMalloc (t : nat) (n a : Z) (junk : Z -> Z)      (* malloc(n): a = where the C library puts it, junk = what is there *)
| ECalloc (t : nat) (c sz a : Z) (junk : Z -> Z)
| ERealloc (t : nat) (p n a : Z) (junk : Z -> Z)   (* realloc(p, n) with p != NULL, up to line 212 *)
| ECopy (t : nat) (a : Z) (junk : Z -> Z)          (* 213-248 *)
| EInsert (t : nat)                                (* 250-256, and the memset of calloc, 307-309 *)
| EFree (t : nat) (p : Z)                          (* 258-286 *)
| EPoke (x v : Z)                                  (* the program writes a byte *)
| ESweep (i : nat)                                 (* memory_debug_thread, 95-107: one bucket *)
| EDump                                            (* dump_memory_leak, 143-152 and 153-155 for bucket 0 *)
| EDumpStep.                                       (* 156-176: one block, or on to the next bucket *)

(** DEBUG_NEW_HASHTABLESIZE, DEBUG_NEW_HASH, 46-50; both can be set when compiling, so the model takes any table size and hash function *)
Definition default_nb : nat := Z.to_nat 16384.
Definition default_hash (p : Z) : nat := Z.to_nat ((p / 256) mod 16384).

(** __libc_malloc puts [n] bytes (at least one) at [a] *)
Definition can_place (s : sys) (a n : Z) : bool := bool_decide (0 < a) && bool_decide (Forall (λ i, mem s (a + i) = None) (seqZ 0 (Z.max 1 n))).
Definition libc_alloc (s : sys) (a n : Z) (g : Z -> option Z) : sys :=
  set_mb (fill a (Z.max 1 n) g (mem s)) (upd (blk s) a (Some (Z.max 1 n))) s.
(** __libc_free; None: not the start of a block *)
Definition libc_free (s : sys) (p : Z) : option sys :=
  if decide (p = 0) then Some s else
  match blk s p with Some l => Some (set_mb (unmap p l (mem s)) (upd (blk s) p None) s) | None => None end.
(** __libc_realloc of a block to another place, the contents kept up to the shorter length *)
Definition keep (m : mem_t) (p l : Z) (g : Z -> option Z) : Z -> option Z := λ i, if decide (i < l) then m (p + i) else g i.
(** 83-90 check_ptr *)
Definition check_ptr (m : mem_t) (r : rec) : bool :=
  bool_decide (Forall (λ i, m (ru r - 8 + i) = Some (start_magic i)) (seqZ 0 8)) &&
  bool_decide (Forall (λ i, m (ru r + rn r + i) = Some (end_magic i)) (seqZ 0 8)).
(** 70-76: the check of free_ptr under ENABLE_FREE_MEMORY_CHECK *)
Definition all_ee (m : mem_t) (r : rec) : bool := bool_decide (Forall (λ i, m (ru r + i) = Some 0xee) (seqZ 0 (rn r))).
(** 78: the block goes back to the C library *)
Definition release (s : sys) (r : rec) : sys := set_mb (unmap (ru r - 8) (rn r + 16) (mem s)) (upd (blk s) (ru r - 8) None) s.
(** 193-212: the new block with its header and trailer *)
Definition raw (n : Z) (i : Z) : option Z :=
  Some (if decide (i < 8) then start_magic i else if decide (i < n + 8) then 0xcc else end_magic (i - n - 8)).

Section M.
Context (delay : bool) (nb : nat) (hash : Z -> nat).
(** 231-240 = 268-276: what happens to an unlinked block of bucket [h] *)
Definition retire (s : sys) (h : nat) (r : rec) : sys :=
  if delay then mks (fill (ru r) (rn r) (λ _, Some 0xee) (mem s)) (blk s) (tab s) (d1 s) (upd (d2 s) h (r :: d2 s h)) (thr s) (started s) (dmp s) (hist s)
  else release s r.
Definition lookup_rec (l : list rec) (p : Z) : option rec := list_find (λ r, ru r = p) l ≫= λ x, Some (snd x).
Definition unlink (l : list rec) (p : Z) : list rec :=
  match list_find (λ r, ru r = p) l with Some (i, _) => delete i l | None => l end.

(** malloc, calloc: 310-314, 185-212 *)
Definition do_malloc (s : sys) (t : nat) (n a : Z) (z : bool) (junk : Z -> Z) : res sys (option Z) :=
  match thr s t with
  | TIdle =>
    if negb (started s) then                                                     (* 186-189 *)
      if can_place s a n then
        Ok (log [HMalloc t n z a false junk] (libc_alloc s a n (λ i, Some (if z && bool_decide (i < n) then 0 else junk i)))) (Some a)
      else Disabled
    else if decide (n = 0) then Ok s (Some 0)                                    (* 192-195 *)
    else if decide (n + 16 < 2 ^ 64) then
      if can_place s a (n + 16) then
        Ok (set_thr (upd (thr s) t (TIns (mkr (a + 8) n) z false)) (libc_alloc s a (n + 16) (raw n))) None
      else Disabled
    else Crash                                                                   (* size + 16 wraps: 202 writes past the block *)
  | _ => Disabled
  end.
(** free: 258-286 *)
Definition do_free (s : sys) (p : Z) : res sys (option Z) :=
  let h := hash p in
  match lookup_rec (tab s h) p with
  | Some r =>
    if check_ptr (mem s) r then Ok (log [HFree p] (retire (set_tab (upd (tab s) h (unlink (tab s h) p)) s) h r)) (Some 0)
    else Crash                                                                   (* abort *)
  | None => match libc_free s p with Some s => Ok (log (if decide (p = 0) then [] else [HFree p]) s) (Some 0) | None => Crash end
  end.
(** __libc_realloc(p, n), n > 0 *)
Definition do_libc_realloc (s : sys) (t : nat) (p n a : Z) (junk : Z -> Z) : res sys (option Z) :=
  match blk s p with
  | Some l =>
    if can_place s a n then
      match libc_free (libc_alloc s a n (keep (mem s) p l (λ i, Some (junk i)))) p with
      | Some s => Ok (log [HRealloc t p n a false junk] s) (Some a)
      | None => Crash
      end
    else Disabled
  | None => Crash
  end.
Definition step (s : sys) (e : ev) : res sys (option Z) :=
  match e with
  | EStart =>                                       (* the second call would forget every block: see C65_restart_refuted *)
    match dmp s with
    | DOff => Ok (mks (mem s) (blk s) (λ _, []) (λ _, []) (λ _, []) (thr s) true DOff (hist s)) None
    | _ => Disabled
    end
  | EMalloc t n a junk => if decide (0 <= n < 2 ^ 64) then do_malloc s t n a false junk else Disabled
  | ECalloc t c sz a junk => if decide (0 <= c < 2 ^ 64 /\ 0 <= sz < 2 ^ 64) then do_malloc s t ((sz * c) mod 2 ^ 64) a true junk else Disabled   (* 305 *)
  | ERealloc t p n a junk =>
    match thr s t with
    | TIdle =>
      if decide (p = 0 \/ n < 0 \/ 2 ^ 64 <= n) then Disabled else
      if decide (n = 0) then if started s then do_free s p else match libc_free s p with Some s => Ok (log [HFree p] s) (Some 0) | None => Crash end else
      if negb (started s) then do_libc_realloc s t p n a junk else
      if decide (n + 16 < 2 ^ 64) then
        if can_place s a (n + 16) then
          Ok (set_thr (upd (thr s) t (TCopy p (mkr (a + 8) n))) (libc_alloc s a (n + 16) (raw n))) None
        else Disabled
      else Crash
    | _ => Disabled
    end
  | ECopy t a junk =>
    match thr s t with
    | TCopy p r =>
      let h := hash p in
      match lookup_rec (tab s h) p with
      | Some o =>
        if check_ptr (mem s) o then
          let s := set_tab (upd (tab s) h (unlink (tab s h) p)) s in
          let s := set_mb (fill (ru r) (Z.min (rn o) (rn r)) (λ i, mem s (p + i)) (mem s)) (blk s) s in
          Ok (log [HRealloc t p (rn r) (ru r) true (λ _, 0)] (set_thr (upd (thr s) t (TIns r false true)) (retire s h o))) None
        else Crash                                                               (* abort *)
      | None => do_libc_realloc (set_thr (upd (thr s) t TIdle) (release s r)) t p (rn r) a junk       (* 244-248 *)
      end
    | _ => Disabled
    end
  | EInsert t =>
    match thr s t with
    | TIns r z re =>
      let h := hash (ru r) in
      let s := set_thr (upd (thr s) t TIdle) (set_tab (upd (tab s) h (r :: tab s h)) s) in
      let s := if z then set_mb (fill (ru r) (rn r) (λ _, Some 0) (mem s)) (blk s) s else s in
      Ok (if re then s else log [HMalloc t (rn r) z (ru r) true (λ _, 0)] s) (Some (ru r))
    | _ => Disabled
    end
  | EFree t p => match thr s t with TIdle => do_free s p | _ => Disabled end
  | EPoke x v => match mem s x with Some _ => Ok (log [HPoke x v] (set_mb (setb x v (mem s)) (blk s) s)) None | None => Crash end
  | ESweep i =>
    if delay && bool_decide (i < nb)%nat then
      if forallb (λ r, check_ptr (mem s) r && all_ee (mem s) r) (d1 s i) then
        let s' := foldl release s (d1 s i) in
        Ok (log ((λ r, HDrop (ru r) (rn r)) <$> d1 s i) (mks (mem s') (blk s') (tab s) (upd (d1 s) i (d2 s i)) (upd (d2 s) i []) (thr s) (started s) (dmp s) (hist s))) None
      else Crash                                                                 (* abort *)
    else Disabled
  | EDump => match dmp s with DOff => Ok (set_dmp (DAt 0 (ru <$> head (tab s 0%nat)) 0 (started s)) false s) None | _ => Disabled end
  | EDumpStep =>
    match dmp s with
    | DAt i (Some p) c sv =>
      match list_find (λ r, ru r = p) (tab s i) with
      | Some (k, _) => Ok (set_dmp (DAt i (ru <$> (tab s i !! S k)) (S c) sv) (started s) s) None
      | None => Crash                                                            (* the node was freed *)
      end
    | DAt i None c sv =>
      if decide (S i < nb)%nat then Ok (set_dmp (DAt (S i) (ru <$> head (tab s (S i))) c sv) (started s) s) None
      else Ok (set_dmp DOff sv s) (Some (Z.of_nat c))
    | DOff => Disabled
    end
  end.
Definition init : sys := mks (λ _, None) (λ _, None) (λ _, []) (λ _, []) (λ _, []) (λ _, TIdle) false DOff [].
End M.
