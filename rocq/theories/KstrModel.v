(** Model of the reference counted strings: include/kstring.h:22-63 (convert_refs_string, kstring_get_ref, kstring_refs,
    kstring_release, kstring_from, kstring_from2), include/kfeature.h:105-110 (kgl_ref_str_t), include/katom.h:16-23, 50-57
    (katom_inc, katom_dec), include/kforwin32.h:31-43, 139 (kgl_strndup).

    Any number of threads; every access to the counter is one atomic step, so is every free.  [win]: the kgl_strndup of
    kforwin32.h:31-43 (true), or the C library's strndup (false), which is given the memory the C standard says it is given.

    A reference is a permission of the program: [own] lists (thread, string) for every reference a thread holds; kstring_from*,
    convert_refs_string and kstring_refs give one to their caller, kstring_release takes one away, a thread may hand one to another
    thread.  [own] is not looked at by the code; it is the program's bookkeeping, used by the rules of use in KstrProps.v.
    Simplified: the memory a string was copied from is a list of readable bytes; a freed header or block is absent from its map and its address is not given
    out again, so that a use after free is always seen. *)
From stdpp Require Export gmap.
From Verif Require Export Lts Count.
Local Open Scope Z_scope.

(** kfeature.h:105-110; [data]: the block, None for NULL *)
Record str := mkstr { data : option nat; len : Z; ref_ : Z }.
(** [hd]: headers, [blk]: blocks of bytes (None: never written), [nx]: next fresh address.
    [decs]: threads that passed the assertion of kstring_release and are about to decrement; [frd], [frs]: threads that decremented
    to 0 and are about to free the bytes, the header.  History: [made] what each string was made of,
    and whether a 0 byte was to follow (kstring_from, kstring_from2). *)
Record st := mkst {
  hd : gmap nat str; blk : gmap nat (list (option Z)); nx : nat;
  decs : list (nat * nat); frd : list (nat * nat); frs : list (nat * nat);
  own : list (nat * nat); made : gmap nat (list Z * bool) }.
Definition init : st := mkst ∅ ∅ 0 [] [] [] [] ∅.
Definition U32 : Z := 4294967296.
Definition LIM : Z := 268435455. (* 0xfffffff, kstring.h:45 *)

(** the position of the first 0 among the first n bytes: strnlen; None: the end of the readable memory is passed *)
Fixpoint strnlen (n : nat) (src : list Z) : option nat :=
  match n with
  | O => Some 0%nat
  | S n => match src with [] => None | b :: src => if bool_decide (b = 0) then Some 0%nat else S <$> strnlen n src end
  end.
(** strlen *)
Fixpoint strlen (src : list Z) : option nat :=
  match src with [] => None | b :: src => if bool_decide (b = 0) then Some 0%nat else S <$> strlen src end.
(** kforwin32.h:31-43 / strndup: the bytes before the first 0, a 0, and on Windows n - k further bytes of memory *)
Definition strndup (win : bool) (src : list Z) (n : nat) : option (list (option Z)) :=
  match strnlen n src with
  | None => None
  | Some k => Some ((Some <$> take k src) ++ [Some 0] ++ (if win then replicate (n - k) None else []))
  end.

Inductive ev :=
| EFrom (t : nat) (src : option (list Z)) (okd okh : bool)          (* kstring_from; okd, okh: the two allocations succeed *)
| EFrom2 (t : nat) (src : list Z) (n : nat) (okd okh : bool)        (* kstring_from2 *)
| EConv (t : nat) (b : option (list (option Z))) (n : nat) (okh : bool) (* convert_refs_string of a block just allocated *)
| ERefs (t : nat) (i : option nat)
| ERel (t : nat) (i : option nat)        (* kstring_release up to the assertion *)
| EDec (t i : nat)                       (* katom_dec *)
| EFreeD (t i : nat)                     (* free of the bytes *)
| EFreeS (t i : nat)                     (* free of the header *)
| EGetRef (t i : nat)                    (* kstring_get_ref *)
| ELen (t i : nat)                       (* the program reads s->len *)
| ERead (t i k : nat)                    (* the program reads s->data[k] *)
| EGive (t u i : nat).                   (* thread t hands a reference to thread u *)
(** what the caller gets *)
Inductive out := OPtr (i : option nat) | OVal (z : Z) | OByte (b : option Z) | ONone.

Definition busy (s : st) (t : nat) : bool := existsb (fun p => Nat.eqb p.1 t) (decs s ++ frd s ++ frs s).
(** the header is written (kstring.h:22-28); n is cut to 32 bits *)
Definition conv (t : nat) (b : option (list (option Z))) (n : nat) (c : list Z * bool) (okh : bool) (s : st) : res st out :=
  if okh then
    let '(bk, d) := match b with None => (blk s, None) | Some b => (<[nx s := b]> (blk s), Some (nx s)) end in
    Ok (mkst (<[nx s := mkstr d (Z.of_nat n mod U32) 1]> (hd s)) bk (S (nx s)) (decs s) (frd s) (frs s) (own s ++ [(t, nx s)]) (<[nx s := c]> (made s)))
       (OPtr (Some (nx s)))
  else Crash. (* s->ref = 1 through a null pointer *)
(** strndup without memory returns NULL *)
Definition from2 (win : bool) (t : nat) (src : list Z) (n : nat) (okd okh : bool) (s : st) : res st out :=
  match strndup win src n with
  | None => Crash
  | Some b => conv t (if okd then Some b else None) n (take n src, true) okh s
  end.
Definition upd (i : nat) (h : str) (s : st) : st := mkst (<[i := h]> (hd s)) (blk s) (nx s) (decs s) (frd s) (frs s) (own s) (made s).
Definition s_own (o : list (nat * nat)) (s : st) : st := mkst (hd s) (blk s) (nx s) (decs s) (frd s) (frs s) o (made s).

Definition step (win : bool) (s : st) (e : ev) : res st out :=
  match e with
  (* kstring.h:53-59 *)
  | EFrom t src okd okh => if busy s t then Disabled else
      match src with
      | None => Ok s (OPtr None)
      | Some src => match strlen src with None => Crash | Some n => from2 win t src n okd okh s end
      end
  (* kstring.h:60-62 *)
  | EFrom2 t src n okd okh => if busy s t then Disabled else from2 win t src n okd okh s
  (* kstring.h:22-28; what the string is said to hold: the first n bytes of the block *)
  | EConv t b n okh => if busy s t then Disabled else conv t b n (match b with Some b => default 0 <$> take n b | None => [] end, false) okh s
  (* kstring.h:32-38; the counter has 32 bits *)
  | ERefs t i => if busy s t then Disabled else
      match i with
      | None => Ok s (OPtr None)
      | Some i => match hd s !! i with
                  | None => Crash
                  | Some h => Ok (s_own (own s ++ [(t, i)]) (upd i (mkstr (data h) (len h) ((ref_ h + 1) mod U32)) s)) (OPtr (Some i))
                  end
      end
  (* kstring.h:41-45 *)
  | ERel t i => if busy s t then Disabled else
      match i with
      | None => Ok s ONone
      | Some i => match hd s !! i with
                  | None => Crash
                  | Some h => if bool_decide (ref_ h < LIM)
                              then Ok (mkst (hd s) (blk s) (nx s) (decs s ++ [(t, i)]) (frd s) (frs s) (remove1 (t, i) (own s)) (made s)) ONone
                              else Crash
                  end
      end
  (* kstring.h:46 *)
  | EDec t i => if bool_decide ((t, i) ∈ decs s) then
      match hd s !! i with
      | None => Crash
      | Some h => let r := (ref_ h - 1) mod U32 in
                  Ok (mkst (<[i := mkstr (data h) (len h) r]> (hd s)) (blk s) (nx s) (remove1 (t, i) (decs s))
                       (if bool_decide (r = 0) then frd s ++ [(t, i)] else frd s) (frs s) (own s) (made s)) ONone
      end else Disabled
  (* kstring.h:47-49 *)
  | EFreeD t i => if bool_decide ((t, i) ∈ frd s) then
      match hd s !! i with
      | None => Crash
      | Some h => match data h with
                  | None => Ok (mkst (hd s) (blk s) (nx s) (decs s) (remove1 (t, i) (frd s)) (frs s ++ [(t, i)]) (own s) (made s)) ONone
                  | Some d => match blk s !! d with
                              | None => Crash
                              | Some _ => Ok (mkst (hd s) (delete d (blk s)) (nx s) (decs s) (remove1 (t, i) (frd s)) (frs s ++ [(t, i)]) (own s) (made s)) ONone
                              end
                  end
      end else Disabled
  (* kstring.h:50 *)
  | EFreeS t i => if bool_decide ((t, i) ∈ frs s) then
      match hd s !! i with
      | None => Crash
      | Some h => Ok (mkst (delete i (hd s)) (blk s) (nx s) (decs s) (frd s) (remove1 (t, i) (frs s)) (own s) (made s)) ONone
      end else Disabled
  (* kstring.h:29-31 *)
  | EGetRef t i => if busy s t then Disabled else match hd s !! i with None => Crash | Some h => Ok s (OVal (ref_ h)) end
  | ELen t i => if busy s t then Disabled else match hd s !! i with None => Crash | Some h => Ok s (OVal (len h)) end
  | ERead t i k => if busy s t then Disabled else
      match hd s !! i with
      | None => Crash
      | Some h => match data h with
                  | None => Crash
                  | Some d => match blk s !! d with
                              | None => Crash
                              | Some b => match b !! k with None => Crash | Some v => Ok s (OByte v) end
                              end
                  end
      end
  | EGive t u i => if busy s t then Disabled else Ok (s_own (remove1 (t, i) (own s) ++ [(u, i)]) s) ONone
  end.
