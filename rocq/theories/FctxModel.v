(** Model of the context switch of fibers on x86-64 (System V): jump_fcontext (fcontext/src/asm/jump_x86_64_sysv_elf_gas.S:49-149),
    make_fcontext with its trampoline and finish labels (make_x86_64_sysv_elf_gas.S:49-187), instruction by instruction, over registers and a
    memory of bytes; and the C code around them: update_fcontext and __kfiber_switch (src/kfiber.c:100-113), fiber_start (157-160),
    kfiber_new (231-255), kfiber_destroy (90-98).

    The conditional parts of the assembly are flags of the build: BOOST_USE_TSX, BOOST_CONTEXT_TLS_STACK_PROTECTOR, BOOST_CONTEXT_SHADOW_STACK.
    Simplified: addresses and registers are 64-bit numbers, memory never faults; the x32 variant (_ILP32) and _CET_ENDBR are left out; the
    shadow stack is only its pointer (restore tokens and saveprevssp have no effect); the processor does not compare return addresses with
    the shadow stack; the members of struct kfiber (ctx) are kept in a table by the address of the struct, not as bytes of the memory;
    kfiber_set_self is the field [self].  Code of the program that is not modelled (everything between two calls) is the event [User], which
    may change all registers and memory. *)
From Coq Require Import ZArith Lia Bool List.
Import ListNotations.
Local Open Scope Z_scope.

(** * Processor *)
Inductive reg := RAX | RCX | RDX | RBX | RSP | RBP | RSI | RDI | R8 | R9 | R10 | R11 | R12 | R13 | R14 | R15.
Definition reg_no (r : reg) : nat :=
  match r with RAX => 0 | RCX => 1 | RDX => 2 | RBX => 3 | RSP => 4 | RBP => 5 | RSI => 6 | RDI => 7 | R8 => 8 | R9 => 9 | R10 => 10
             | R11 => 11 | R12 => 12 | R13 => 13 | R14 => 14 | R15 => 15 end.
Definition reg_eqb (a b : reg) : bool := Nat.eqb (reg_no a) (reg_no b).

(** registers; memory; MXCSR; x87 control word; the stack guard of the thread (%fs:0x28); shadow stack pointer *)
Record cpu := mkcpu { regs : reg -> Z; mem : Z -> Z; mxcsr : Z; fcw : Z; guard : Z; ssp : Z }.

Definition W : Z := 2 ^ 64.
Definition wrap (v : Z) : Z := v mod W.
Definition setr (r : reg) (v : Z) (s : cpu) : cpu :=
  mkcpu (fun x => if reg_eqb x r then v else regs s x) (mem s) (mxcsr s) (fcw s) (guard s) (ssp s).
(** n bytes at a, little endian *)
Fixpoint load (n : nat) (a : Z) (m : Z -> Z) {struct n} : Z :=
  match n with O => 0 | S n => m (wrap a) + 256 * load n (a + 1) m end.
Fixpoint store (n : nat) (a v : Z) (m : Z -> Z) {struct n} : Z -> Z :=
  match n with
  | O => m
  | S n => store n (a + 1) (v / 256) (fun x => if x =? wrap a then v mod 256 else m x)
  end.
Definition setm (m : Z -> Z) (s : cpu) : cpu := mkcpu (regs s) m (mxcsr s) (fcw s) (guard s) (ssp s).

(** labels of the program: trampoline and finish (make_x86_64:163, 179), the local labels "jmp trampoline" and "jmp *%rbp" that the shadow
    stack variant pushes, fiber_start (kfiber.c:157) *)
Record image := mkimg { i_tramp : Z; i_finish : Z; i_jtramp : Z; i_jrbp : Z; i_start : Z }.
Inductive label := LTramp | LFinish | LJTramp | LJRbp.
Definition addr_of (im : image) (l : label) : Z :=
  match l with LTramp => i_tramp im | LFinish => i_finish im | LJTramp => i_jtramp im | LJRbp => i_jrbp im end.

Inductive instr :=
| Lea (off : Z) (b d : reg)            (** leaq off(b), d *)
| LeaL (l : label) (d : reg)           (** leaq l(%rip), d *)
| Mov (s d : reg)                      (** movq s, d *)
| Load (off : Z) (b d : reg)           (** movq off(b), d *)
| Store (s : reg) (off : Z) (b : reg)  (** movq s, off(b) *)
| AndI (i : Z) (d : reg)               (** andq i, d *)
| Xor (s d : reg)                      (** xorq s, d *)
| Stmxcsr (off : Z) (b : reg)
| Ldmxcsr (off : Z) (b : reg)
| Fnstcw (off : Z) (b : reg)
| Fldcw (off : Z) (b : reg)
| LoadG (d : reg)                      (** movq %fs:0x28, d *)
| StoreG (s : reg)                     (** movq s, %fs:0x28 *)
| Push (s : reg)
| PushL (l : label)                    (** call to the next but one instruction: pushes the address in between *)
| PopM (off : Z) (b : reg)             (** pop off(b) *)
| Rdssp (d : reg)
| Rstorssp (off : Z) (b : reg)
| Incssp
| JmpR (r : reg)                       (** jmp *r *)
| Ret
| CallExit.                            (** call _exit *)

(** how a piece of code ends: control goes to an address; the process exits with a status; control falls off the code *)
Inductive stop := Goto (a : Z) | Exited (status : Z) | Fell.

Definition ea (s : cpu) (off : Z) (b : reg) : Z := wrap (regs s b + off).
Definition push (v : Z) (s : cpu) : cpu :=
  setr RSP (wrap (regs s RSP - 8)) (setm (store 8 (wrap (regs s RSP - 8)) v (mem s)) s).
(** one instruction that continues with the next *)
Definition one (im : image) (i : instr) (s : cpu) : cpu :=
  match i with
  | Lea off b d => setr d (ea s off b) s
  | LeaL l d => setr d (addr_of im l) s
  | Mov a d => setr d (regs s a) s
  | Load off b d => setr d (load 8 (ea s off b) (mem s)) s
  | Store a off b => setm (store 8 (ea s off b) (regs s a) (mem s)) s
  | AndI i d => setr d (Z.land (regs s d) (wrap i)) s
  | Xor a d => setr d (Z.lxor (regs s d) (regs s a)) s
  | Stmxcsr off b => setm (store 4 (ea s off b) (mxcsr s) (mem s)) s
  | Ldmxcsr off b => mkcpu (regs s) (mem s) (load 4 (ea s off b) (mem s)) (fcw s) (guard s) (ssp s)
  | Fnstcw off b => setm (store 2 (ea s off b) (fcw s) (mem s)) s
  | Fldcw off b => mkcpu (regs s) (mem s) (mxcsr s) (load 2 (ea s off b) (mem s)) (guard s) (ssp s)
  | LoadG d => setr d (guard s) s
  | StoreG a => mkcpu (regs s) (mem s) (mxcsr s) (fcw s) (regs s a) (ssp s)
  | Push a => push (regs s a) s
  | PushL l => push (addr_of im l) s
  | PopM off b =>
      let v := load 8 (regs s RSP) (mem s) in
      let s' := setr RSP (wrap (regs s RSP + 8)) s in
      setm (store 8 (ea s' off b) v (mem s')) s'
  | Rdssp d => setr d (ssp s) s
  | Rstorssp off b => mkcpu (regs s) (mem s) (mxcsr s) (fcw s) (guard s) (ea s off b)
  | Incssp => mkcpu (regs s) (mem s) (mxcsr s) (fcw s) (guard s) (wrap (ssp s + 8))
  | JmpR _ | Ret | CallExit => s
  end.
Fixpoint exec (im : image) (c : list instr) (s : cpu) {struct c} : stop * cpu :=
  match c with
  | [] => (Fell, s)
  | JmpR r :: _ => (Goto (regs s r), s)
  | Ret :: _ => (Goto (load 8 (regs s RSP) (mem s)), setr RSP (wrap (regs s RSP + 8)) s)
  | CallExit :: _ => (Exited (regs s RDI), s)
  | i :: c => exec im c (one im i s)
  end.

(** * The assembly *)
(** build flags: BOOST_USE_TSX; BOOST_CONTEXT_TLS_STACK_PROTECTOR; BOOST_CONTEXT_SHADOW_STACK; sizeof(struct kfiber); KFIBER_REDZONE
    (kfiber.c:37-41); NDEBUG not defined (kfiber.c:238-242) *)
Record build := mkbuild { tsx : bool; tlsguard : bool; shstk : bool; sizeof_fiber : Z; redzone : Z; debug : bool }.

(** jump_x86_64:51-69 *)
Definition jump_save (b : build) : list instr :=
  [Lea (-64) RSP RSP]
  ++ (if tsx b then [] else [Stmxcsr 0 RSP; Fnstcw 4 RSP])
  ++ (if tlsguard b then [LoadG RCX; Store RCX 8 RSP] else [])
  ++ [Store R12 16 RSP; Store R13 24 RSP; Store R14 32 RSP; Store R15 40 RSP; Store RBX 48 RSP; Store RBP 56 RSP].
(** jump_x86_64:70-84, twice *)
Definition jump_ssp (b : build) : list instr :=
  if shstk b then [Lea (-8) RSP RSP; Rdssp RCX; Store RCX 0 RSP; Lea (-8) RSP RSP; Rdssp RCX; Store RCX 0 RSP] else [].
(** jump_x86_64:86-149 *)
Definition jump_restore (b : build) : list instr :=
  [Mov RSP RAX; Mov RDI RSP]
  ++ (if shstk b then [Load 0 RSP RCX; Lea 8 RSP RSP; Rstorssp (-8) RCX; Incssp] else [])
  ++ [Load 64 RSP R8]
  ++ (if tsx b then [] else [Ldmxcsr 0 RSP; Fldcw 4 RSP])
  ++ (if tlsguard b then [Load 8 RSP RDX; StoreG RDX] else [])
  ++ [Load 16 RSP R12; Load 24 RSP R13; Load 32 RSP R14; Load 40 RSP R15; Load 48 RSP RBX; Load 56 RSP RBP; Lea 72 RSP RSP;
      Mov RSI RDX; Mov RAX RDI; JmpR R8].
Definition jump_fcontext (b : build) : list instr := jump_save b ++ jump_ssp b ++ jump_restore b.

(** make_x86_64:93-121 (and again 123-158) *)
Definition make_ssp : list instr :=
  [Rdssp R8; Rstorssp (-8) R9; PushL LJTramp; PopM 56 RAX; Rdssp R9; Rstorssp (-8) R8; Lea (-8) RAX RAX; Store R9 0 RAX].
(** make_x86_64:52-161 *)
Definition make_fcontext (b : build) : list instr :=
  (if shstk b then [Load (-8) RDI R9] else [])
  ++ [Mov RDI RAX; AndI (-16) RAX; Lea (-72) RAX RAX; Store RDX 48 RAX; Stmxcsr 0 RAX; Fnstcw 4 RAX]
  ++ (if tlsguard b then [LoadG RCX; Store RCX 8 RSP] else [])
  ++ [LeaL LTramp RCX; Store RCX 64 RAX; LeaL LFinish RCX; Store RCX 56 RAX]
  ++ (if shstk b then make_ssp ++ make_ssp else [])
  ++ [Ret].
(** make_x86_64:163-177 *)
Definition trampoline (b : build) : list instr := [if shstk b then PushL LJRbp else Push RBP; JmpR RBX].
(** make_x86_64:179-186 *)
Definition finish : list instr := [Xor RDI RDI; CallExit].

(** a C call: the arguments in RDI, RSI, RDX, the return address on the stack *)
Definition call (im : image) (c : list instr) (a1 a2 a3 ra : Z) (s : cpu) : stop * cpu :=
  exec im c (push ra (setr RDI a1 (setr RSI a2 (setr RDX a3 s)))).

(** * The C code *)
(** bytes of stack of a new fiber, kfiber.c:233-242 (C division) *)
Definition stk_bytes (b : build) (size : Z) : Z :=
  let page := Z.quot size 4096 in
  let n := page * 4096 in
  let n := if n =? 0 then 65536 else n in
  if debug b then n + 65536 else n.
(** the usable stack of the fiber at p: kfiber.c:246, 255 *)
Definition stk_lo (b : build) (p : Z) : Z := p + sizeof_fiber b.
Definition stk_top (b : build) (p size : Z) : Z := p + sizeof_fiber b + redzone b + stk_bytes b size.
(** end of the allocated block, kfiber.c:246 *)
Definition blk_end (b : build) (p size : Z) : Z := p + sizeof_fiber b + stk_bytes b size + 2 * redzone b.

(** what a fiber has at a call: stack pointer, return address, callee-saved registers, MXCSR, x87 control word *)
Record snap := mksnap { k_sp : Z; k_ra : Z; k_rbx : Z; k_rbp : Z; k_r12 : Z; k_r13 : Z; k_r14 : Z; k_r15 : Z; k_mx : Z; k_cw : Z }.
(** processor; fiber->ctx; the running fiber; where it runs; the memory of each existing fiber (from, to); for the proofs: what each
    suspended fiber had *)
Record sys := mksys { cp : cpu; ctx : Z -> Z; self : Z; pc : Z; stk : Z -> option (Z * Z); kept : Z -> snap }.

Definition upd {A} (f : Z -> A) (k : Z) (v : A) : Z -> A := fun x => if x =? k then v else f x.

Inductive event :=
| User (c : cpu) (pc : Z)           (** the running fiber, other threads and the kernel do anything *)
| Create (p size : Z) (ra : Z)      (** kfiber_new(start, arg, size), malloc gave p *)
| Switch (g : Z) (ra : Z)           (** __kfiber_switch(self, g) *)
| Free (g : Z).                     (** kfiber_destroy(g) *)

(** registers, bytes and control words are in range *)
Definition wf (c : cpu) : Prop :=
  (forall r, 0 <= regs c r < W) /\ (forall a, 0 <= mem c a < 256) /\ 0 <= mxcsr c < 2 ^ 32 /\ 0 <= fcw c < 2 ^ 16.
(** the running fiber has room on its stack for a call of jump_fcontext *)
Definition room (s : option (Z * Z)) (c : cpu) : Prop :=
  match s with Some (lo, hi) => lo + 72 <= regs c RSP <= hi | None => False end.
Definition apart (lo hi lo' hi' : Z) : Prop := hi <= lo' \/ hi' <= lo.

(** after jump_fcontext went to [t]: a resumed __kfiber_switch runs update_fcontext with the returned transfer_t (RAX, RDX;
    kfiber.c:112, 101-103); the trampoline enters the context function, which is fiber_start and does the same with its argument
    (RDI, RSI; kfiber.c:158-159) *)
Definition arrive (b : build) (im : image) (t : stop) (c : cpu) (x : Z -> Z) : stop * cpu * (Z -> Z) :=
  match t with
  | Goto a =>
      if (a =? i_tramp im) || (shstk b && (a =? i_jtramp im)) then
        match exec im (trampoline b) c with
        | (Goto e, c') => (Goto e, c', if e =? i_start im then upd x (regs c' RSI) (regs c' RDI) else x)
        | (t, c') => (t, c', x)
        end
      else (Goto a, c, upd x (regs c RDX) (regs c RAX))
  | t => (t, c, x)
  end.
Definition at_pc (t : stop) : Z := match t with Goto a => a | _ => -1 end.
Definition snap_of (c : cpu) (ra : Z) : snap :=
  mksnap (regs c RSP) ra (regs c RBX) (regs c RBP) (regs c R12) (regs c R13) (regs c R14) (regs c R15) (mxcsr c) (fcw c).
(** what the frame at a holds *)
Definition snap_at (m : Z -> Z) (a : Z) : snap :=
  mksnap (a + 72) (load 8 (a + 64) m) (load 8 (a + 48) m) (load 8 (a + 56) m) (load 8 (a + 16) m) (load 8 (a + 24) m) (load 8 (a + 32) m)
    (load 8 (a + 40) m) (load 4 a m) (load 2 (a + 4) m).

Inductive step (b : build) (im : image) : sys -> event -> sys -> Prop :=
| s_user s c a :
    wf c -> room (stk s (self s)) c ->
    (* nobody writes below the stack pointer of a fiber that is not running *)
    (forall g r, stk s g = Some r -> g <> self s -> forall x, k_sp (kept s g) - 72 <= x < k_sp (kept s g) -> mem c x = mem (cp s) x) ->
    step b im s (User c a) (mksys c (ctx s) (self s) a (stk s) (kept s))
| s_create s p size ra t c :
    0 <= size -> 0 < p -> blk_end b p size <= W - 1 -> stk s p = None -> 0 <= ra < W ->
    (* malloc: the new block overlaps no other fiber *)
    (forall g lo hi, stk s g = Some (lo, hi) -> apart (stk_lo b p) (blk_end b p size) lo hi) ->
    call im (make_fcontext b) (stk_top b p size) (stk_bytes b size) (i_start im) ra (cp s) = (t, c) ->
    step b im s (Create p size ra)
      (mksys c (upd (ctx s) p (regs c RAX)) (self s) (at_pc t) (upd (stk s) p (Some (stk_lo b p, stk_top b p size)))
         (upd (kept s) p (snap_at (mem c) (regs c RAX))))
| s_switch s g ra t c t' c' x :
    g <> self s -> stk s g <> None -> 0 <= ra < W -> ra <> i_tramp im -> room (stk s (self s)) (cp s) ->
    call im (jump_fcontext b) (ctx s g) (self s) (regs (cp s) RDX) ra (cp s) = (t, c) ->
    arrive b im t c (ctx s) = (t', c', x) ->
    step b im s (Switch g ra) (mksys c' x g (at_pc t') (stk s) (upd (kept s) (self s) (snap_of (cp s) ra)))
| s_free s g :
    g <> self s ->
    step b im s (Free g) (mksys (cp s) (ctx s) (self s) (pc s) (upd (stk s) g None) (kept s)).
Inductive steps (b : build) (im : image) : sys -> list event -> sys -> Prop :=
| ss_nil s : steps b im s [] s
| ss_cons s e s1 l s2 : step b im s e s1 -> steps b im s1 l s2 -> steps b im s (e :: l) s2.

(** the main fiber runs on the stack of its thread, nothing else exists *)
Definition start_state (m lo hi : Z) (c : cpu) (a : Z) : sys :=
  mksys c (fun _ => 0) m a (upd (fun _ => None) m (Some (lo, hi))) (fun _ => snap_of c a).
