(** Specification of C74: protocol lists, and which context and protocol a connection ends up with. *)
From stdpp Require Import list.
From Verif Require Import SniModel.
Local Open Scope Z_scope.

(** the wire format of a list of protocol names; the names are 1 to 255 bytes long *)
Fixpoint enc (ps : list (list Z)) : list Z := match ps with [] => [] | p :: ps => Z.of_nat (length p) :: p ++ enc ps end.
Definition wire (ps : list (list Z)) : Prop := forall p, p ∈ ps -> (1 <= length p <= 255)%nat.
(** the first protocol of the server that the client offers *)
Definition pick (server client : list (list Z)) : option (list Z) := head (filter (λ p, p ∈ client) server).
(** the protocols the npn callback names for a context, http/1.1 if it names none *)
Definition HTTP11 : list Z := [104; 116; 116; 112; 47; 49; 46; 49].
Definition offers (npn : option Z -> option (list Z)) (ps : option Z -> list (list Z)) : Prop :=
  forall d, wire (ps d) /\ match npn d with Some l => l = enc (ps d) | None => ps d = [HTTP11] end.
(** what clients offer is in wire format *)
Definition well_formed (l : list hello) : Prop := forall h a, h ∈ l -> h_alpn h = Some a -> exists ps, wire ps /\ a = enc ps.
(** the objects returned by kgl_ssl_create_sni *)
Definition objects (l : list call) : list nat := filter (λ i, (c_obj <$> l !! i) = Some true) (seq 0 (length l)).
(** the context named by the last call that named one *)
Definition chosen (init : nat) (l : list call) : nat := default init (last (omap c_ctx l)).
