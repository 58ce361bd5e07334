(** * SpecTasks: vocabulary for the follow-up transactions of a node. *)
From Verif Require Import Base Utf8 Ident Crypto Types SpecStore SpecValid Trustee.
From Coq Require Import Sorting.Permutation.
Open Scope list_scope.

Section Spec.
  Context {C : Crypto}.
  Implicit Types (L : list STx) (el : ElectionTx).

  (** the key is one of the election's trustees; the first entry with the key counts *)
  Definition acts_as el (k : PublicKey) (i : byte) : Prop :=
    exists t, first_with (fun t => tr_public_key t = k) (el_trustees el) t /\ tr_index t = i.
  Definition is_trustee el (k : PublicKey) : Prop := exists t, In t (el_trustees el) /\ tr_public_key t = k.
  (** trustee indices of an election are distinct *)
  Definition distinct_indices el : Prop := NoDup (map tr_index (el_trustees el)).
  (** the list has one element for each trustee, by index *)
  Definition one_each {A} (idx : A -> byte) el (l : list A) : Prop :=
    Permutation (map idx l) (map tr_index (el_trustees el)).
  (** every vote of the range has exactly one selection list for contest [c] *)
  Definition votes_once (c : u32) (v : VoteTx) : Prop :=
    exists pre ev post, vt_votes v = pre ++ ev :: post /\ ev_contest ev = c
      /\ forall e, In e (pre ++ post) -> ev_contest e <> c.
End Spec.
