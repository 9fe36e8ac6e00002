(** Model of the context switch of fibers on arm64 (AAPCS64, ELF): jump_fcontext (fcontext/src/asm/jump_arm64_aapcs_elf_gas.S:54-114) and
    make_fcontext with its finish label (make_arm64_aapcs_elf_gas.S:54-85), instruction by instruction, over registers and a memory of bytes;
    and the C code around them: update_fcontext and __kfiber_switch (src/kfiber.c:100-113), fiber_start (157-160), kfiber_new (231-255),
    kfiber_destroy (90-98).  The sizes of stacks and the memory operations are those of FctxModel.v (C75, x86-64).

    Simplified: addresses and registers are 64-bit numbers and memory never faults, but an access relative to SP with an SP that is not a
    multiple of 16 does (the stack alignment check is on under Linux); of the vector registers only the low halves d0-d31 exist; pointer
    authentication and branch target identification are left out (the code has none); ctx of struct kfiber is kept in a table by the address
    of the struct, not as bytes of the memory; kfiber_set_self is the field [self].  Code of the program that is not modelled (everything
    between two calls) is the event [User], which may change all registers and memory. *)
From Coq Require Import ZArith Lia Bool List.
From Verif Require Import FctxModel.
Import ListNotations.
Local Open Scope Z_scope.

(** * Processor *)
(** x0-x30 (x29 is the frame pointer, x30 the link register), d0-d31, sp *)
Inductive areg := X (n : nat) | D (n : nat) | SP.
Definition areg_eqb (a b : areg) : bool :=
  match a, b with X n, X m => Nat.eqb n m | D n, D m => Nat.eqb n m | SP, SP => true | _, _ => false end.
(** registers; memory; FPCR (rounding mode, flush to zero, default NaN, traps) *)
Record acpu := mkacpu { aregs : areg -> Z; amem : Z -> Z; fpcr : Z }.
Definition aset (r : areg) (v : Z) (s : acpu) : acpu := mkacpu (fun x => if areg_eqb x r then v else aregs s x) (amem s) (fpcr s).
Definition asetm (m : Z -> Z) (s : acpu) : acpu := mkacpu (aregs s) m (fpcr s).

(** labels: finish (make_arm64:80) and fiber_start (kfiber.c:157) *)
Record aimage := mkaimg { a_finish : Z; a_start : Z }.

Inductive ainstr :=
| ASubI (d a : areg) (i : Z)            (** sub d, a, #i *)
| AAddI (d a : areg) (i : Z)            (** add d, a, #i *)
| AAndI (d a : areg) (i : Z)            (** and d, a, #i *)
| AMov (d a : areg)                     (** mov d, a *)
| AMovI (d : areg) (i : Z)              (** mov d, #i *)
| AAdrFinish (d : areg)                 (** adr d, finish *)
| AStp (a b base : areg) (off : Z)      (** stp a, b, [base, #off] *)
| ALdp (a b base : areg) (off : Z)      (** ldp a, b, [base, #off] *)
| AStr (a base : areg) (off : Z)        (** str a, [base, #off] *)
| ALdr (a base : areg) (off : Z)        (** ldr a, [base, #off] *)
| ARet (r : areg)                       (** ret r *)
| ABlExit.                              (** bl _exit *)

(** how a piece of code ends: control goes to an address; the process exits with a status; the stack alignment check fails; control falls
    off the code *)
Inductive astop := AGoto (a : Z) | AExited (status : Z) | AFault | AFell.

Definition aea (s : acpu) (base : areg) (off : Z) : Z := wrap (aregs s base + off).
Definition misaligned (i : ainstr) (s : acpu) : bool :=
  match i with
  | AStp _ _ SP _ | ALdp _ _ SP _ | AStr _ SP _ | ALdr _ SP _ => negb (aregs s SP mod 16 =? 0)
  | _ => false
  end.
Definition aone (im : aimage) (i : ainstr) (s : acpu) : acpu :=
  match i with
  | ASubI d a i => aset d (wrap (aregs s a - i)) s
  | AAddI d a i => aset d (wrap (aregs s a + i)) s
  | AAndI d a i => aset d (Z.land (aregs s a) (wrap i)) s
  | AMov d a => aset d (aregs s a) s
  | AMovI d i => aset d (wrap i) s
  | AAdrFinish d => aset d (a_finish im) s
  | AStp a b base off =>
      asetm (store 8 (aea s base (off + 8)) (aregs s b) (store 8 (aea s base off) (aregs s a) (amem s))) s
  | ALdp a b base off =>
      aset b (load 8 (aea s base (off + 8)) (amem s)) (aset a (load 8 (aea s base off) (amem s)) s)
  | AStr a base off => asetm (store 8 (aea s base off) (aregs s a) (amem s)) s
  | ALdr a base off => aset a (load 8 (aea s base off) (amem s)) s
  | ARet _ | ABlExit => s
  end.
Fixpoint aexec (im : aimage) (c : list ainstr) (s : acpu) {struct c} : astop * acpu :=
  match c with
  | [] => (AFell, s)
  | i :: c =>
      if misaligned i s then (AFault, s)
      else match i with
           | ARet r => (AGoto (aregs s r), s)
           | ABlExit => (AExited (aregs s (X 0)), s)
           | _ => aexec im c (aone im i s)
           end
  end.

(** * The assembly *)
(** jump_arm64:60-79 *)
Definition ajump_save : list ainstr :=
  [ASubI SP SP 176;
   AStp (D 8) (D 9) SP 0; AStp (D 10) (D 11) SP 16; AStp (D 12) (D 13) SP 32; AStp (D 14) (D 15) SP 48;
   AStp (X 19) (X 20) SP 64; AStp (X 21) (X 22) SP 80; AStp (X 23) (X 24) SP 96; AStp (X 25) (X 26) SP 112; AStp (X 27) (X 28) SP 128;
   AStp (X 29) (X 30) SP 144;
   AStr (X 30) SP 160].
(** jump_arm64:82-111 *)
Definition ajump_restore : list ainstr :=
  [AMov (X 4) SP; AMov SP (X 0);
   ALdp (D 8) (D 9) SP 0; ALdp (D 10) (D 11) SP 16; ALdp (D 12) (D 13) SP 32; ALdp (D 14) (D 15) SP 48;
   ALdp (X 19) (X 20) SP 64; ALdp (X 21) (X 22) SP 80; ALdp (X 23) (X 24) SP 96; ALdp (X 25) (X 26) SP 112; ALdp (X 27) (X 28) SP 128;
   ALdp (X 29) (X 30) SP 144;
   AMov (X 0) (X 4); ALdr (X 4) SP 160; AAddI SP SP 176; ARet (X 4)].
Definition ajump_fcontext : list ainstr := ajump_save ++ ajump_restore.
(** make_arm64:60-78 *)
Definition amake_fcontext : list ainstr :=
  [AAndI (X 0) (X 0) (-16); ASubI (X 0) (X 0) 176; AStr (X 2) (X 0) 160; AAdrFinish (X 1); AStr (X 1) (X 0) 152; ARet (X 30)].
(** make_arm64:80-84 *)
Definition afinish : list ainstr := [AMovI (X 0) 0; ABlExit].

(** a C call: the arguments in x0, x1, x2, the return address in x30 *)
Definition acall (im : aimage) (c : list ainstr) (a1 a2 a3 ra : Z) (s : acpu) : astop * acpu :=
  aexec im c (aset (X 30) ra (aset (X 0) a1 (aset (X 1) a2 (aset (X 2) a3 s)))).

(** * The C code *)
(** the registers the frame holds *)
Definition frame_regs : list areg :=
  [D 8; D 9; D 10; D 11; D 12; D 13; D 14; D 15; X 19; X 20; X 21; X 22; X 23; X 24; X 25; X 26; X 27; X 28; X 29; X 30].
(** what a fiber has at a call: stack pointer, return address, values of [frame_regs] *)
Record asnap := mkasnap { q_sp : Z; q_pc : Z; q_vals : list Z }.
(** processor; fiber->ctx; the running fiber; where it runs; the memory of each existing fiber (from, to); for the proofs: what each
    suspended fiber had *)
Record asys := mkasys { acp : acpu; actx : Z -> Z; aself : Z; apc : Z; astk : Z -> option (Z * Z); akept : Z -> asnap }.

Inductive aevent :=
| AUser (c : acpu) (pc : Z)          (** the running fiber, other threads and the kernel do anything *)
| ACreate (p size : Z) (ra : Z)      (** kfiber_new(start, arg, size), malloc gave p *)
| ASwitch (g : Z) (ra : Z)           (** __kfiber_switch(self, g) *)
| AFree (g : Z).                     (** kfiber_destroy(g) *)

(** registers and bytes are in range *)
Definition awf (c : acpu) : Prop := (forall r, 0 <= aregs c r < W) /\ (forall a, 0 <= amem c a < 256).
(** the running fiber has an aligned stack pointer and room for a call of jump_fcontext *)
Definition aroom (s : option (Z * Z)) (c : acpu) : Prop :=
  match s with Some (lo, hi) => lo + 176 <= aregs c SP <= hi /\ aregs c SP mod 16 = 0 | None => False end.

(** after jump_fcontext went to an address: a resumed __kfiber_switch runs update_fcontext with the returned transfer_t (kfiber.c:112,
    101-103), and fiber_start does the same with its argument (kfiber.c:158-159); both are x0 and x1 *)
Definition aarrive (t : astop) (c : acpu) (x : Z -> Z) : Z -> Z :=
  match t with AGoto _ => upd x (aregs c (X 1)) (aregs c (X 0)) | _ => x end.
Definition apc_of (t : astop) : Z := match t with AGoto a => a | _ => -1 end.
Definition asnap_of (c : acpu) (ra : Z) : asnap := mkasnap (aregs c SP) ra (map (aregs (aset (X 30) ra c)) frame_regs).
(** n words from f + off *)
Fixpoint loads (f off : Z) (n : nat) (m : Z -> Z) {struct n} : list Z :=
  match n with O => [] | S n => load 8 (f + off) m :: loads f (off + 8) n m end.
(** what the frame at a holds *)
Definition asnap_at (m : Z -> Z) (a : Z) : asnap := mkasnap (a + 176) (load 8 (a + 160) m) (loads a 0 20 m).

Inductive astep (b : build) (im : aimage) : asys -> aevent -> asys -> Prop :=
| as_user s c a :
    awf c -> aroom (astk s (aself s)) c ->
    (* nobody writes below the stack pointer of a fiber that is not running *)
    (forall g r, astk s g = Some r -> g <> aself s -> forall x, q_sp (akept s g) - 176 <= x < q_sp (akept s g) -> amem c x = amem (acp s) x) ->
    astep b im s (AUser c a) (mkasys c (actx s) (aself s) a (astk s) (akept s))
| as_create s p size ra t c :
    0 <= size -> 0 < p -> blk_end b p size <= W - 1 -> astk s p = None -> 0 <= ra < W ->
    (* malloc: the new block overlaps no other fiber *)
    (forall g lo hi, astk s g = Some (lo, hi) -> apart (stk_lo b p) (blk_end b p size) lo hi) ->
    acall im amake_fcontext (stk_top b p size) (stk_bytes b size) (a_start im) ra (acp s) = (t, c) ->
    astep b im s (ACreate p size ra)
      (mkasys c (upd (actx s) p (aregs c (X 0))) (aself s) (apc_of t) (upd (astk s) p (Some (stk_lo b p, stk_top b p size)))
         (upd (akept s) p (asnap_at (amem c) (aregs c (X 0)))))
| as_switch s g ra t c :
    g <> aself s -> astk s g <> None -> 0 <= ra < W ->
    acall im ajump_fcontext (actx s g) (aself s) (aregs (acp s) (X 2)) ra (acp s) = (t, c) ->
    astep b im s (ASwitch g ra) (mkasys c (aarrive t c (actx s)) g (apc_of t) (astk s) (upd (akept s) (aself s) (asnap_of (acp s) ra)))
| as_free s g :
    g <> aself s ->
    astep b im s (AFree g) (mkasys (acp s) (actx s) (aself s) (apc s) (upd (astk s) g None) (akept s)).
Inductive asteps (b : build) (im : aimage) : asys -> list aevent -> asys -> Prop :=
| ass_nil s : asteps b im s [] s
| ass_cons s e s1 l s2 : astep b im s e s1 -> asteps b im s1 l s2 -> asteps b im s (e :: l) s2.

(** the main fiber runs on the stack of its thread, nothing else exists *)
Definition astart_state (m lo hi : Z) (c : acpu) (a : Z) : asys :=
  mkasys c (fun _ => 0) m a (upd (fun _ => None) m (Some (lo, hi))) (fun _ => asnap_of c a).
