(** * SpecValid: acceptance rules, stated as predicates over the content [L] of the store.

    No function of Validate.v or Store.v is used; lookups are membership in [L]. *)
From Verif Require Import Base Utf8 Cbor Ident BuildId Crypto Types Serde SpecStore.
From Coq Require Import Strings.String.
Open Scope list_scope.

(** [a] is the first element of [l] satisfying [P] *)
Definition first_with {A} (P : A -> Prop) (l : list A) (a : A) : Prop :=
  exists pre post, l = pre ++ a :: post /\ P a /\ forall b, In b pre -> ~ P b.

Section Spec.
  Context {C : Crypto}.
  Implicit Types (L : list STx).

  (** the entry stored under [i] is the transaction [t] *)
  Definition at_id L (i : Identifier) (t : Tx) : Prop := exists x, In x L /\ s_id x = i /\ s_tx x = t.
  Definition occupied L (i : Identifier) : Prop := exists x, In x L /\ s_id x = i.
  (** identifier of election [e], type [t], unique part zero *)
  Definition slot0 (e : Identifier) (t : TxType) : Identifier := mk_id (id_election e) t (arr_rep x00 16).
  (** the transaction sits in the range of election [e] and type [t] *)
  Definition in_range (e : Identifier) (t : TxType) (x : STx) : Prop :=
    id_election (s_id x) = id_election e /\ id_type (s_id x) = t.

  Definition signed_by (k : PublicKey) (x : STx) : Prop :=
    ed_verify k (cenc (ser_tx (s_tx x))) (s_sig x) = true.
  Definition lists_trustee (el : ElectionTx) (i : byte) (k : PublicKey) : Prop :=
    exists t, In t (el_trustees el) /\ tr_index t = i /\ tr_public_key t = k.

  (** ** elections and key generation *)
  Definition ok_election (t : ElectionTx) : Prop :=
    el_id t = slot0 (el_id t) TElection
    /\ (u8v (el_threshold t) <= N.of_nat (List.length (el_trustees t)))%N
    /\ (u8v (el_auth_threshold t) <= N.of_nat (List.length (el_authenticators t)))%N.
  Definition ok_commitment L (t : CommitmentTx) : Prop :=
    exists el, at_id L (kc_election t) (XElection el) /\ lists_trustee el (kc_trustee t) (kc_public t).
  Definition ok_share L (t : ShareTx) : Prop :=
    exists el, at_id L (ks_election t) (XElection el) /\ lists_trustee el (ks_trustee t) (ks_public t)
      /\ List.length (sv (ks_shares t)) = List.length (el_trustees el)
      /\ forall tr, In tr (el_trustees el) -> exists sh, In (tr_index tr, sh) (sv (ks_shares t)).
  Definition ok_pubkey L (t : PublicKeyTx) : Prop :=
    exists el, at_id L (kp_election t) (XElection el) /\ lists_trustee el (kp_trustee t) (kp_public t).
  (** the transactions of one range, all of the expected kind *)
  Definition range_is {A} L (e : Identifier) (ty : TxType) (mk : A -> Tx) (l : list A) : Prop :=
    map s_tx (listed L e ty) = map mk l.
  Definition ok_enckey L (t : EncryptionKeyTx) : Prop :=
    exists el pks, at_id L (ek_election t) (XElection el)
      /\ ek_authority t = el_authority el
      /\ range_is L (ek_election t) TKeyGenPublicKey XPublicKey pks
      /\ List.length pks = List.length (el_trustees el)
      /\ (forall tr, In tr (el_trustees el) ->
            exists p, In p pks /\ kp_trustee p = tr_index tr /\ kp_public p = tr_public_key tr)
      /\ (forall p, In p pks -> kp_key p = ek_key t).

  (** ** votes *)
  (** the message an authenticator signs *)
  Definition auth_message (e : Identifier) (ballot : rstring) (k : PublicKey) : bytes :=
    cenc (CMap [(CText (lit "election_id"), ser_id e); (CText (lit "ballot_id"), CText ballot);
                (CText (lit "anonymous_key"), CBytes (arr_l (sv k)))]).
  (** authenticator [a] has signed (election, ballot, key) *)
  Definition authenticated (a : Authenticator) (e : Identifier) (ballot : rstring) (k : PublicKey) (sig : bytes)
    : Prop :=
    exists pk d, In (ballot, pk) (sv (au_keys a)) /\ rsa_hash pk (auth_message e ballot k) = Some d
      /\ rsa_verify pk d sig = true.
  (** the slot actually examined by the collision check: first 10 bytes of the key, then zeros *)
  Definition collision_slot (e : Identifier) (k : PublicKey) (i : Identifier) : Prop :=
    id_election i = id_election e /\ id_type i = TVote
    /\ arr_l (id_unique i) = firstn 10 (arr_l (sv k)) ++ repeat x00 6.
  Definition ok_vote L (t : VoteTx) : Prop :=
    exists el, at_id L (vt_election t) (XElection el)
      /\ (id_election (vt_id t) = id_election (vt_election t) /\ id_type (vt_id t) = TVote
          /\ arr_l (id_unique (vt_id t)) = firstn 16 (arr_l (sv (vt_key t))))
      /\ (forall x, In x L -> ~ collision_slot (vt_election t) (vt_key t) (s_id x))
      /\ occupied L (slot0 (vt_election t) TEncryptionKey)
      /\ ~ occupied L (slot0 (vt_election t) TVotingEnd)
      /\ (forall an, In an (vt_authn t) ->
            exists a, first_with (fun a => au_id a = an_authenticator an) (el_authenticators el) a
              /\ authenticated a (vt_election t) (vt_ballot t) (vt_key t) (an_signature an))
      /\ exists b, first_with (fun b => bal_id b = vt_ballot t) (el_ballots el) b
           /\ forall ev, In ev (vt_votes t) -> In (ev_contest ev) (bal_contests b).

  Definition ok_votingend L (t : VotingEndTx) : Prop :=
    exists el, at_id L (ve_election t) (XElection el) /\ ve_authority t = el_authority el.

  (** ** mixes *)
  (** the rows cast in contest [c] by a list of votes, in order *)
  Fixpoint cast_rows (c : u32) (l : list EncryptedVote) : list (list Ciphertext) :=
    match l with
    | [] => []
    | ev :: l' => if N.eqb (uv (ev_contest ev)) (uv c) then ev_selections ev :: cast_rows c l'
                  else cast_rows c l'
    end.
  Fixpoint rows_of (c : u32) (vs : list VoteTx) : list (list Ciphertext) :=
    match vs with [] => [] | v :: vs' => cast_rows c (vt_votes v) ++ rows_of c vs' end.

  Definition first_source L (t : MixTx) (ins : list (list Ciphertext)) : Prop :=
    mx_prev t = None /\ mx_index t = x00
    /\ exists vs, range_is L (mx_election t) TVote XVote vs
         /\ mx_votes t = map s_id (listed L (mx_election t) TVote) /\ ins = rows_of (mx_contest t) vs.
  (** [dbg]: overflow checks on *)
  Definition next_source (dbg : bool) L (t : MixTx) (ins : list (list Ciphertext)) : Prop :=
    exists p pm, mx_prev t = Some p /\ at_id L p (XMix pm)
      /\ (u8v (mx_index t) = (u8v (mx_index pm) + 1)%N
          \/ (dbg = false /\ mx_index pm = xff /\ mx_index t = x00))
      /\ mx_election t = mx_election pm /\ mx_contest t = mx_contest pm /\ mx_batch t = mx_batch pm
      /\ mx_votes t = mx_votes pm /\ ins = mx_out pm.
  Definition ok_mix (dbg : bool) L (t : MixTx) : Prop :=
    mx_id t = mix_build_id (mx_election t) (mx_contest t) (mx_batch t) (mx_index t) (mx_trustee t)
    /\ (exists el mc, at_id L (mx_election t) (XElection el) /\ el_mix_config el = Some mc
          /\ lists_trustee el (mx_trustee t) (mx_public t))
    /\ (u8v (mx_trustee t) = (u8v (mx_index t) + 1)%N
        \/ (dbg = false /\ mx_trustee t = x00 /\ mx_index t = xff))
    /\ List.length (mx_out t) = List.length (mx_votes t)
    /\ exists ins k, (first_source L t ins \/ next_source dbg L t ins)
         /\ at_id L (slot0 (mx_election t) TEncryptionKey) (XEncryptionKey k)
         /\ shuffle_verify (mix_seed (mx_contest t) (mx_batch t) (mx_index t) (mx_trustee t))
              (N.of_nat (List.length ins)) ins (mx_out t) (ek_key k) (mx_proof t) = true.

  (** ** decryption *)
  (** the ciphertext row named by (upstream, row index, contest) *)
  Definition vote_row L (el : ElectionTx) (up : Identifier) (idx : u16) (contest : u32) (row : list Ciphertext) : Prop :=
    id_type up = TVote /\ el_mix_config el = None /\ uv idx = 0%N
    /\ exists v ev, at_id L up (XVote v) /\ first_with (fun ev => ev_contest ev = contest) (vt_votes v) ev
         /\ row = ev_selections ev.
  Definition mix_row L (el : ElectionTx) (up : Identifier) (idx : u16) (contest : u32) (row : list Ciphertext) : Prop :=
    id_type up = TMix /\ el_mix_config el <> None
    /\ exists m, at_id L up (XMix m) /\ mx_contest m = contest
         /\ (uv idx < N.of_nat (List.length (mx_out m)) mod 65536)%N
         /\ nth_error (mx_out m) (N.to_nat (uv idx)) = Some row.
  Definition row_at L el up idx contest row : Prop :=
    vote_row L el up idx contest row \/ mix_row L el up idx contest row.

  Definition ok_partial L (t : PartialTx) : Prop :=
    exists el row pk, at_id L (pd_election t) (XElection el)
      /\ lists_trustee el (pd_trustee t) (pd_public t)
      /\ pd_id t = partial_build_id (pd_election t) (pd_upstream t) (pd_contest t) (pd_index t) (pd_trustee t)
      /\ occupied L (slot0 (pd_election t) TVotingEnd)
      /\ row_at L el (pd_upstream t) (pd_index t) (pd_contest t) row
      /\ at_id L (pubkey_build_id (pd_election t) (pd_trustee t)) (XPublicKey pk)
      /\ kp_trustee pk = pd_trustee t /\ kp_public pk = pd_public t
      /\ Forall2 (fun sh ct => share_verify sh (kp_proof pk) ct = true) (pd_shares t) row.

  (** the shares handed to the threshold decryption of ciphertext number [i]: for each trustee of
      the election, in order, the last partial decryption and the last public key of its index *)
  Definition last_with {A} (P : A -> Prop) (l : list A) (a : A) : Prop := first_with P (rev l) a.
  Inductive shares_for (i : nat) (pks : list PublicKeyTx) (parts : list PartialTx)
    : list Trustee -> list (byte * PubkeyProof * DecryptShare) -> Prop :=
  | sf_nil : shares_for i pks parts [] []
  | sf_skip : forall tr trs l,
      (forall p, In p parts -> pd_trustee p <> tr_index tr)
      \/ (forall k, In k pks -> kp_trustee k <> tr_index tr) ->
      shares_for i pks parts trs l -> shares_for i pks parts (tr :: trs) l
  | sf_take : forall tr trs l p k sh,
      last_with (fun p => pd_trustee p = tr_index tr) parts p ->
      last_with (fun k => kp_trustee k = tr_index tr) pks k ->
      nth_error (pd_shares p) i = Some sh ->
      shares_for i pks parts trs l -> shares_for i pks parts (tr :: trs) ((tr_index tr, kp_proof k, sh) :: l).
  (** [sels] is the decoded threshold decryption of the row *)
  Definition decrypts (decode : bytes -> option Selection) (el : ElectionTx) (pks : list PublicKeyTx)
    (parts : list PartialTx) (row : list Ciphertext) (sels : list Selection) : Prop :=
    List.length sels = List.length row
    /\ forall i ct sel, nth_error row i = Some ct -> nth_error sels i = Some sel ->
         exists l m, shares_for i pks parts (el_trustees el) l
           /\ threshold_decrypt (el_threshold el) ct l = Some m /\ decode m = Some sel.
  Definition ok_decryption (decode : bytes -> option Selection) L (t : DecryptionTx) : Prop :=
    exists el row pks parts, at_id L (dc_election t) (XElection el)
      /\ dc_id t = decryption_build_id (dc_election t) (dc_upstream t) (dc_contest t) (dc_index t)
      /\ row_at L el (dc_upstream t) (dc_index t) (dc_contest t) row
      /\ range_is L (dc_election t) TKeyGenPublicKey XPublicKey pks
      /\ Forall2 (fun i p => (exists tr, In tr (el_trustees el) /\ tr_index tr = i)
            /\ at_id L (partial_build_id (dc_election t) (dc_upstream t) (dc_contest t) (dc_index t) i) (XPartial p))
           (dc_trustees t) parts
      /\ (u8v (el_threshold el) <= N.of_nat (List.length (dc_trustees t)))%N
      /\ decrypts decode el pks parts row (dc_vote t).
End Spec.
