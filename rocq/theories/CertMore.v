(** Property C73: what does not hold, and runs. *)
From stdpp Require Import gmap.
From Verif Require Import Count CertModel CertSpec CertProof CertProof2 CertProof3 CertProof4 CertProps.
Local Open Scope Z_scope.

Definition never : nat -> bool := λ _, false.
Definition tty0 : list Z := [112].
Definition pairs : Z -> Z -> bool := λ c k, c =? 10 * k.
(** file 1: a certificate and its chain; file 2: its key; file 3: all in one, the key encrypted *)
Definition files0 : Z -> option (list pem * nat) := λ n,
  if n =? 1 then Some ([PCert 70; PCert 71; PCert 72], 1200%nat) else if n =? 2 then Some ([PKey 7 None], 400%nat) else
  if n =? 3 then Some ([PKey 7 (Some [112]); PCert 70; PCert 71], 900%nat) else None.
(** what the context serves; how many certificate objects, stacks, keys and other objects there are *)
Definition served (s : st) : option (option Z * option (list Z) * option Z) :=
  match cx s with
  | None => None
  | Some c => Some (option_map (xc s) (c_cert c), match c_chain c with Some h => option_map (List.map (xc s)) (sts s !! h) | None => None end, option_map (kc s) (c_key c))
  end.
Definition sizes (s : st) : list nat := [size (xs s); size (sts s); size (ks s); size (tmps s)].
Definition view {A} (r : option (A * st)) := (λ r, (fst r, served (snd r), sizes (snd r), sid_of (snd r))) <$> r.

Theorem C73_demo_server : view (ctx_new_server never tty0 files0 pairs (Some 1) 2 None None true true true empty_st)
  = Some (true, Some (Some 70, Some [71; 72], Some 7), [3; 1; 1; 0]%nat, Some [CName 1; CPart 1 0; CPart 1 1; CPart 1 2]).
Proof. by vm_compute. Qed.
Theorem C73_demo_one_file : view (ctx_new_server never tty0 files0 pairs None 3 None None true true true empty_st)
  = Some (true, Some (Some 70, Some [71], Some 7), [2; 1; 1; 0]%nat, Some [CName 3; CPart 3 0; CPart 3 1]).
Proof. by vm_compute. Qed.
Theorem C73_demo_mismatch : view (ctx_new_server never tty0 files0 (λ _ _, false) (Some 1) 2 None None true true true empty_st) = Some (false, None, [0; 0; 0; 0]%nat, None).
Proof. by vm_compute. Qed.
Theorem C73_demo_data : view (ctx_new_server2 never tty0 files0 pairs (SData 5 [PCert 70; PCert 71]) (SData 6 [PKey 7 None]) None (Some 9) false false false empty_st)
  = Some (true, Some (Some 70, Some [71], Some 7), [2; 1; 1; 0]%nat, Some [CName 5]).
Proof. by vm_compute. Qed.
(** the second password opens the key *)
Theorem C73_demo_passwords : view ((let* ok := ctx_new never in if ok : bool then reloads never tty0 files0 true [(SFile 1, SFile 2, None); (SEmpty, SData 6 [PKey 8 (Some [1; 2]); PCert 80], Some [[3]; [1; 2]])] else ret false) empty_st)
  = Some (true, Some (Some 80, Some [], Some 8), [2; 1; 1; 0]%nat, None).
Proof. by vm_compute. Qed.
Theorem C73_demo_good : good_texts [PCert 70; PCert 71; PCert 72] [PKey 7 None] pairs (term_pw tty0).
Proof. split; [done|]. exists 70, [71; 72], 7, None, []. split_and!; try done. by left. Qed.

(** a context made by kgl_ssl_ctx_new_server2 and freed by the user leaves its certificate behind *)
Theorem C73_leak_refuted : exists s, (let* ok := ctx_new_server2 never tty0 files0 pairs (SFile 1) (SFile 2) None None false false false in SSL_CTX_free ;;; ret ok) empty_st = Some (true, s) /\ ~ only_left s [].
Proof.
  destruct ((let* ok := ctx_new_server2 never tty0 files0 pairs (SFile 1) (SFile 2) None None false false false in SSL_CTX_free ;;; ret ok) empty_st) as [[ok s]|] eqn:E.
  2: { exfalso. assert (H : bool_decide (is_Some (fst <$> (let* ok := ctx_new_server2 never tty0 files0 pairs (SFile 1) (SFile 2) None None false false false in SSL_CTX_free ;;; ret ok) empty_st)) = true) by by vm_compute. by rewrite E in H. }
  assert (H : (λ r, (fst r, hget (xs (snd r)) 1)) <$> (let* ok := ctx_new_server2 never tty0 files0 pairs (SFile 1) (SFile 2) None None false false false in SSL_CTX_free ;;; ret ok) empty_st = Some (true, 1)) by by vm_compute.
  rewrite E in H. injection H as -> H. exists s. split; [done|]. intros (_ & _ & _ & _ & HO). rewrite HO in H. discriminate H.
Qed.
(** nor does a failed call give everything back *)
Theorem C73_failed_leak_refuted : exists s, ctx_new_server2 never tty0 files0 (λ _ _, false) (SFile 1) (SFile 2) None None false false false empty_st = Some (false, s) /\ ~ only_left s [].
Proof.
  destruct (ctx_new_server2 never tty0 files0 (λ _ _, false) (SFile 1) (SFile 2) None None false false false empty_st) as [[ok s]|] eqn:E.
  2: { exfalso. assert (H : bool_decide (is_Some (fst <$> ctx_new_server2 never tty0 files0 (λ _ _, false) (SFile 1) (SFile 2) None None false false false empty_st)) = true) by by vm_compute. by rewrite E in H. }
  assert (H : (λ r, (fst r, hget (xs (snd r)) 1)) <$> ctx_new_server2 never tty0 files0 (λ _ _, false) (SFile 1) (SFile 2) None None false false false empty_st = Some (false, 1)) by by vm_compute.
  rewrite E in H. injection H as -> H. exists s. split; [done|]. intros (_ & _ & _ & _ & HO). rewrite HO in H. discriminate H.
Qed.
(** kgl_ssl_certificate accepts NULL for the certificate (it is then looked for in the key text), kgl_ssl_ctx_new_server2 dereferences it *)
Theorem C73_null_refuted : (exists s, (let* ok := ctx_new never in kgl_ssl_certificate never tty0 files0 SNull (SFile 3) None) empty_st = Some (true, s)) /\
  ctx_new_server2 never tty0 files0 pairs SNull (SFile 3) None None false false false empty_st = None.
Proof.
  split; [|by vm_compute]. destruct ((let* ok := ctx_new never in kgl_ssl_certificate never tty0 files0 SNull (SFile 3) None) empty_st) as [[ok s]|] eqn:E.
  - exists s. assert (H : fst <$> (let* ok := ctx_new never in kgl_ssl_certificate never tty0 files0 SNull (SFile 3) None) empty_st = Some true) by by vm_compute. rewrite E in H. injection H as ->. done.
  - exfalso. assert (H : fst <$> (let* ok := ctx_new never in kgl_ssl_certificate never tty0 files0 SNull (SFile 3) None) empty_st = Some true) by by vm_compute. by rewrite E in H.
Qed.
(** a damaged block whose error has the reason 108 in some other library ends the chain silently: the certificates behind it are dropped *)
Theorem C73_truncated_refuted : (λ r, (fst r, served (snd r))) <$> ctx_new_server2 never tty0 files0 pairs (SData 5 [PCert 70; PBad 13 108; PCert 71]) (SFile 2) None None false false false empty_st
  = Some (true, Some (Some 70, Some [], Some 7)).
Proof. by vm_compute. Qed.
(** an empty array of passwords and an encrypted key: the password is read past the end of the array *)
Theorem C73_empty_passwords_refuted : (let* ok := ctx_new never in kgl_ssl_certificate never tty0 files0 (SFile 1) (SFile 3) (Some [])) empty_st = None.
Proof. by vm_compute. Qed.
(** the result of kgl_ssl_session_id_context_from_buffer is ignored: a context that demands client certificates may come without a session id
    context *)
Theorem C73_no_sid_refuted : exists n, (λ r, (fst r, sid_of (snd r), c_ver <$> cx (snd r))) <$>
  ctx_new_server2 (λ i, bool_decide (i = n)) tty0 files0 pairs (SFile 1) (SFile 2) None (Some 9) false false false empty_st = Some (true, None, Some VPeerFail).
Proof. exists 14%nat. by vm_compute. Qed.
