(** Model of writing integers into the buffers: src/kbuf.c:163-174 (krw_write_int,
    krw_write_int64) and 222-233 (ks_write_int, ks_write_int64).  Bytes are their codes. *)
From stdpp Require Import prelude.
From Coq Require Import ZArith.
From Verif Require Import KbufModel.
Local Open Scope Z_scope.

(** the C library's conversion "%d": the last digit is n mod 10 *)
Fixpoint digits (fuel : nat) (n : Z) : list Z :=
  if n <? 10 then [48 + n]
  else match fuel with O => [] | S fuel => digits fuel (n / 10) ++ [48 + n mod 10] end.
Definition dtext (v : Z) : list Z := if v <? 0 then 45 :: digits 20 (- v) else digits 20 v.
(** snprintf(buf, size, "%d", v) on a buffer of zeros: at most size-1 bytes of the text and a 0
    are stored; the result is the length of the whole text, stored or not *)
Definition snprintf_d (size : nat) (v : Z) : list Z * nat :=
  let stored := take (size - 1) (dtext v) in
  (stored ++ replicate (size - length stored) 0, length (dtext v)).

(** src/kbuf.c:163-168 with size 16, :169-174 with size 32; None: bytes behind buf are read *)
Definition krw_write_num (size : nat) (s : @krw Z) (v : Z) : option (@krw Z) :=
  let '(buf, len) := snprintf_d size v in
  if decide (len <= length buf)%nat then krw_write_str len s (take len buf) else None.
Definition krw_write_int := krw_write_num 16.
Definition krw_write_int64 := krw_write_num 32.
(** src/kbuf.c:222-227, :228-233 *)
Definition ks_write_num (size : nat) (s : @ks Z) (v : Z) : option (@ks Z) :=
  let '(buf, len) := snprintf_d size v in
  if decide (len <= length buf)%nat then ks_write_str s (take len buf) else None.
Definition ks_write_int := ks_write_num 16.
Definition ks_write_int64 := ks_write_num 32.
