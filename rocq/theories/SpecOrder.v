(** * SpecOrder: what the order of arrival changes. *)
From Verif Require Import Base Ident Crypto Types Store SpecStore Validate SpecValid SpecHist.
Open Scope list_scope.

Section Spec.
  Context {C : Crypto}.
  (** [x] would be recorded after [h] *)
  Definition acceptable (dbg : bool) (h : list STx) (x : STx) : Prop := validate dbg (ms_store (ms_from h)) x = Ok tt.
  (** recording [y] takes away what the acceptance of [x] rests on *)
  Inductive disturbs (y x : STx) : Prop :=
  | d_collision v : s_tx x = XVote v -> collision_slot (vt_election v) (vt_key v) (s_id y) -> disturbs y x
  | d_ended v : s_tx x = XVote v -> s_id y = slot0 (vt_election v) TVotingEnd -> disturbs y x
  | d_key k : s_tx x = XEncryptionKey k -> in_range (ek_election k) TKeyGenPublicKey y -> disturbs y x
  | d_vote m : s_tx x = XMix m -> mx_prev m = None -> in_range (mx_election m) TVote y -> disturbs y x
  | d_proof d : s_tx x = XDecryption d -> in_range (dc_election d) TKeyGenPublicKey y -> disturbs y x.
  (** kinds that nothing disturbs *)
  Definition settled (t : Tx) : Prop :=
    match t with
    | XVote _ | XEncryptionKey _ | XDecryption _ => False
    | XMix m => mx_prev m <> None
    | _ => True
    end.
End Spec.
