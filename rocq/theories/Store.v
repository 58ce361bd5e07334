(** * Store: the [Store] trait and [MemStore] (cryptoballot/src/store.rs). *)
From Verif Require Import Base Ident Crypto Types.

Section Store.
  Context {C : Crypto}.

  (** [TransactionNotFound], store.rs 5-10 *)
  Record NotFound := mk_notfound { nf_id : Identifier; nf_type : TxType }.

  (** The two required methods of the trait (19-23).  They return plain values, but an
      implementation may panic; [res Empty_set] is a value or a panic. *)
  Record Store := mk_store {
    st_get : Identifier -> res Empty_set (option STx);
    st_range : Identifier -> Identifier -> res Empty_set (list STx)
  }.

  Definition lift {E A} (m : res Empty_set A) : res E A :=
    match m with Ok a => Ok a | Err e => match e with end | Panic p => Panic p end.

  (** [get_multiple], 25-34 *)
  Definition get_multiple (s : Store) (e : Identifier) (t : TxType) : res Empty_set (list STx) :=
    let! a := id_start e t None in
    let! b := id_end e t None in
    st_range s a b.

  (** typed getters, 39-132 *)
  Definition get_typed {A} (proj : Tx -> option A) (t : TxType) (s : Store) (i : Identifier)
    : res NotFound (A * Signature) :=
    let! o := lift (st_get s i) in
    match o with
    | Some x => match proj (s_tx x) with
                | Some a => Ok (a, s_sig x)
                | None => Err (mk_notfound i t)
                end
    | None => Err (mk_notfound i t)
    end.

  Definition as_election (t : Tx) := match t with XElection x => Some x | _ => None end.
  Definition as_commitment (t : Tx) := match t with XCommitment x => Some x | _ => None end.
  Definition as_share (t : Tx) := match t with XShare x => Some x | _ => None end.
  Definition as_pubkey (t : Tx) := match t with XPublicKey x => Some x | _ => None end.
  Definition as_enckey (t : Tx) := match t with XEncryptionKey x => Some x | _ => None end.
  Definition as_vote (t : Tx) := match t with XVote x => Some x | _ => None end.
  Definition as_votingend (t : Tx) := match t with XVotingEnd x => Some x | _ => None end.
  Definition as_mix (t : Tx) := match t with XMix x => Some x | _ => None end.
  Definition as_partial (t : Tx) := match t with XPartial x => Some x | _ => None end.
  Definition as_decryption (t : Tx) := match t with XDecryption x => Some x | _ => None end.

  Definition get_election := get_typed as_election TElection.
  Definition get_keygen_public_key := get_typed as_pubkey TKeyGenPublicKey.
  Definition get_vote := get_typed as_vote TVote.
  Definition get_mix := get_typed as_mix TMix.
  Definition get_partial_decryption := get_typed as_partial TPartialDecryption.
  Definition get_decryption := get_typed as_decryption TDecryption.

  (** [From<SignedTransaction> for X] / [for Signed<X>], transaction.rs 583-911: panic on another type *)
  Definition into_typed {E A} (proj : Tx -> option A) (x : STx) : res E A :=
    or_panic (proj (s_tx x)) PWrongType.

  (** ** [BTreeMap<String, V>]: association list with strictly ascending keys *)
  Section BTree.
    Context {V : Type}.
    Definition btree := list (bytes * V).
    Fixpoint bt_insert (m : btree) (k : bytes) (v : V) : btree :=
      match m with
      | [] => [(k, v)]
      | (k', v') :: m' =>
          match lex k k' with
          | Lt => (k, v) :: (k', v') :: m'
          | Eq => (k, v) :: m'
          | Gt => (k', v') :: bt_insert m' k v
          end
      end.
    Fixpoint bt_get (m : btree) (k : bytes) : option V :=
      match m with
      | [] => None
      | (k', v) :: m' => if bytes_eqb k k' then Some v else bt_get m' k
      end.
    (** [BTreeMap::range(start..=end)]: panics when start > end *)
    Definition bt_range {E} (m : btree) (a b : bytes) : res E (list (bytes * V)) :=
      if bytes_leb a b
      then Ok (filter (fun p => bytes_leb a (fst p) && bytes_leb (fst p) b) m)
      else Panic PRange.
  End BTree.
  Arguments btree : clear implicits.

  (** [MemStore], 134-186 *)
  Definition MemStore := btree STx.
  Definition ms_empty : MemStore := [].
  Definition ms_set (m : MemStore) (x : STx) : MemStore := bt_insert m (id_to_string (s_id x)) x.
  Definition ms_get (m : MemStore) (i : Identifier) : option STx := bt_get m (id_to_string i).
  Definition ms_range (m : MemStore) (a b : Identifier) : res Empty_set (list STx) :=
    let! l := bt_range m (id_to_string a) (id_to_string b) in Ok (map snd l).
  Definition ms_store (m : MemStore) : Store := mk_store (fun i => Ok (ms_get m i)) (ms_range m).
  (** [From<Vec<SignedTransaction>>], 178-186 *)
  Definition ms_from (l : list STx) : MemStore := fold_left ms_set l ms_empty.
End Store.
Arguments btree : clear implicits.
