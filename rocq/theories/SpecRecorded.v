(** * SpecRecorded: the form that elections have in the recorded files. *)
From Verif Require Import Base Utf8 Cbor SpecWire.
From Coq Require Strings.String.
Import String.StringSyntax.
Open Scope list_scope.

Definition holds_field (v : cval) (k : rstring) (w : cval) : Prop := exists m, v = CMap m /\ In (CText k, w) m.
(** a transaction with a contest that has no field [id] *)
Definition nameless (v : cval) : Prop :=
  exists e l c, holds_field v (name "tx") e /\ holds_field e (name "contests") (CArr l) /\ In (CMap c) l /\ absent (name "id") c.
