(** * SpecStore: what a store is supposed to be, independent of [MemStore].

    A store's content is a list of transactions in ascending identifier order. *)
From Verif Require Import Base Ident Crypto Types Store.
From Coq Require Import Sorting.Sorted.

Section Spec.
  Context {C : Crypto}.

  Definition id_lt (a b : Identifier) : Prop := id_cmp a b = Lt.
  Definition id_le (a b : Identifier) : Prop := id_cmp a b <> Gt.
  (** ascending identifiers, hence no identifier twice *)
  Definition ascending (L : list STx) : Prop := StronglySorted (fun x y => id_lt (s_id x) (s_id y)) L.

  (** the entry with identifier [i] *)
  Definition entry (L : list STx) (i : Identifier) : option STx := find (fun x => id_eqb (s_id x) i) L.
  (** the entries whose identifier has election and type as given *)
  Definition listed (L : list STx) (e : Identifier) (t : TxType) : list STx :=
    filter (fun x => arr_eqb (id_election (s_id x)) (id_election e) && tt_eqb (id_type (s_id x)) t) L.
  (** the entries from [a] to [b] inclusive *)
  Definition between (L : list STx) (a b : Identifier) : list STx :=
    filter (fun x => match id_cmp a (s_id x) with Gt => false | _ => true end
                     && match id_cmp (s_id x) b with Gt => false | _ => true end) L.

  (** [s] behaves like the content [L] *)
  Record holds (s : Store) (L : list STx) : Prop := {
    h_asc : ascending L;
    h_get : forall i, st_get s i = Ok (entry L i);
    h_range : forall a b, id_le a b -> st_range s a b = Ok (between L a b)
  }.

  (** last write in a sequence of writes *)
  Fixpoint last_set (l : list STx) (i : Identifier) : option STx :=
    match l with
    | [] => None
    | x :: l' => match last_set l' i with
                 | Some y => Some y
                 | None => if id_eqb (s_id x) i then Some x else None
                 end
    end.
End Spec.
