(** * SpecCli: vocabulary for the command line client. *)
From Verif Require Import Base Hex Utf8 Cbor Ident Crypto Types Serde.
Open Scope list_scope.

(** A serialised value within the limits of the encoding: lengths below 2^64, nesting at most [n]. *)
Definition small (n : nat) (v : cval) : Prop := cwf v = true /\ cdepth v <= n.

Section Spec.
  Context {C : Crypto}.
  (** the decoder's limits: nesting at most 127 *)
  Definition transportable (x : STx) : Prop := small 127 (ser_stx x).

  (** an identifier written in hexadecimal, of which the first fifteen bytes name election [e] *)
  Definition names (s : bytes) (e : arr 15) : Prop := exists b, hex_decode s = Some (arr_l e ++ b).
  (** identifier of election [e], type [t], unique part zero *)
  Definition zero_slot (e : arr 15) (t : TxType) : Identifier := mk_id e t (arr_rep x00 16).
End Spec.
