(** * SpecSeat: who holds which place in the list of trustees. *)
From Verif Require Import Base Ident BuildId Crypto Types.
Open Scope list_scope.

(** [a] is the first (the last) element of [l] with [P] *)
Definition first_with {A} (P : A -> Prop) (l : list A) (a : A) : Prop :=
  exists p q, l = p ++ a :: q /\ P a /\ forall b, In b p -> ~ P b.
Definition last_with {A} (P : A -> Prop) (l : list A) (a : A) : Prop :=
  exists p q, l = p ++ a :: q /\ P a /\ forall b, In b q -> ~ P b.

Section Spec.
  Context {C : Crypto}.
  Definition holder (k : PublicKey) (t : Trustee) : Prop := tr_public_key t = k.
  Definition numbered (i : byte) (t : Trustee) : Prop := tr_index t = i.
  (** a place together with what the election says about all trustees *)
  Definition informed (el : ElectionTx) (u t : Trustee) : Prop :=
    tr_public_key t = tr_public_key u /\ tr_index t = tr_index u
    /\ uv (tr_num t) = (N.of_nat (List.length (el_trustees el)) mod 2 ^ 64)%N /\ tr_threshold t = el_threshold el.
  (** one key holds two places *)
  Definition two_places (el : ElectionTx) : Prop :=
    exists p t q u r, el_trustees el = p ++ t :: q ++ u :: r /\ tr_public_key t = tr_public_key u.
  (** commitments of the election are made as its nodes make them: for the first place of the node's key *)
  Definition own_places (el : ElectionTx) (h : list STx) : Prop :=
    forall x t, In x h -> s_tx x = XCommitment t -> id_election (s_id x) = id_election (el_id el) ->
    kc_election t = el_id el /\ s_id x = commitment_build_id (el_id el) (kc_trustee t)
    /\ exists u, first_with (holder (kc_public t)) (el_trustees el) u /\ kc_trustee t = tr_index u.
End Spec.
