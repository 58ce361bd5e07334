(** * Serde: the derived (de)serialisers of all transactions, as CBOR data items.

    Serialisation is exact for serde_cbor 0.11 with the attributes in the source: a struct is a
    map from field names to values in declaration order, [Option::None] is null, a [Uuid], an
    [EncryptedShare], a key and a signature (serde_hex.rs, through the trait [Hex] of hex_buffer_serde) are
    byte strings, an [Authentication] has its signature as hex text, an internally tagged enum puts its tag first.
    The signatures recorded in /repo/test_elections verify for this form and for no other choice of bytes or text.
    Deserialisation: fields are looked up by name, unknown fields are ignored, duplicated or
    missing fields are errors ([Option] fields and [#[serde(default)]] fields may be missing).
    Simplifications: structs given as arrays or with integer keys are rejected; when one field is malformed and another crashes, the earlier field in declaration
    order decides. *)
From Verif Require Import Base BaseFacts Hex HexFacts Utf8 Cbor Value Ident Crypto Types.
From Coq Require Import Strings.String.
Open Scope list_scope.

(** text literals *)
Notation lit s := (@mk_sub bytes utf8_valid (list_byte_of_string s) eq_refl : rstring).

Lemma hex_utf8 l : utf8_valid (hex_encode l) = true.
Proof.
  induction l as [|b l IH]; [reflexivity|].
  change (hex_encode (b :: l)) with (hex_byte b ++ hex_encode l).
  pose proof (byte_sweep (fun b => forallb (in_range 0 127) (hex_byte b))
    ltac:(vm_compute; reflexivity) b) as H.
  unfold hex_byte in *. cbn [forallb app] in *.
  apply andb_true_iff in H as [H1 H]. apply andb_true_iff in H as [H2 _].
  cbn [utf8_valid]. rewrite H1, H2. exact IH.
Qed.
Definition hex_text (l : bytes) : cval := CText (mk_sub (hex_encode l) (norm_true (hex_utf8 l))).

(** ** Serialisation *)
Definition ser_id (i : Identifier) : cval := hex_text (id_to_bytes i).   (* transaction.rs 457-464 *)
(** values of library types: their own serialised form *)
Definition ser_sub {P : cval -> bool} (x : sub P) : cval := sv x.
Definition ser_u8 (b : byte) : cval := CUint (u_of 8 (u8v b)).
Definition ser_u {k} (n : uN k) : cval := CUint (u_of 8 (uv n)).
Definition ser_opt {A} (f : A -> cval) (o : option A) : cval :=
  match o with None => CNull | Some a => f a end.
Definition ser_list {A} (f : A -> cval) (l : list A) : cval := CArr (map f l).
Definition ser_props (p : props) : cval := CMap (map (fun '(k, v) => (CText k, ser_value v)) (sv p)).
Definition skip_empty (k : rstring) (p : props) : list (cval * cval) :=
  match sv p with [] => [] | _ => [(CText k, ser_props p)] end.

Definition ct_name (c : ContestType) : rstring :=
  match c with
  | Plurality => lit "plurality" | Score => lit "score" | Approval => lit "approval"
  | Condorcet => lit "condorcet" | Borda => lit "borda" | BordaClassic => lit "borda_classic"
  | BordaDowdall => lit "borda_dowdall" | BordaModifiedClassic => lit "borda_modified_classic"
  | SchulzeWinning => lit "schulze_winning" | SchulzeRatio => lit "schulze_ratio"
  | SchulzeMargin => lit "schulze_margin"
  end.
Definition all_ct : list ContestType :=
  [Plurality; Score; Approval; Condorcet; Borda; BordaClassic; BordaDowdall;
   BordaModifiedClassic; SchulzeWinning; SchulzeRatio; SchulzeMargin].

Definition ser_candidate (c : Candidate) : cval :=
  CMap ([(CText (lit "id"), CText (cand_id c))] ++ skip_empty (lit "properties") (cand_props c)).
Definition ser_contest (c : Contest) : cval :=
  CMap ([(CText (lit "id"), CText (cont_id c)); (CText (lit "index"), ser_u (cont_index c));
         (CText (lit "contest_type"), CText (ct_name (cont_type c)));
         (CText (lit "num_winners"), ser_u (cont_winners c));
         (CText (lit "write_in"), CBool (cont_write_in c));
         (CText (lit "candidates"), ser_list ser_candidate (cont_candidates c))]
        ++ skip_empty (lit "properties") (cont_props c)).
Definition ser_ballot (b : Ballot) : cval :=
  CMap ([(CText (lit "id"), CText (bal_id b)); (CText (lit "contests"), ser_list ser_u (bal_contests b))]
        ++ skip_empty (lit "properties") (bal_props b)).
Definition ser_selection (s : Selection) : cval :=
  CMap [(CText (lit "write_in"), CBool (sel_write_in s)); (CText (lit "score"), ser_u (sel_score s));
        (CText (lit "selection"), CText (sel_text s))].
Definition ser_mixconfig (m : MixConfig) : cval :=
  CMap [(CText (lit "timeout_secs"), ser_u (mc_timeout m)); (CText (lit "batch_size"), ser_opt ser_u (mc_batch m))].

Section Ser.
  Context {C : Crypto}.

  Definition ser_pk (p : PublicKey) : cval := CBytes (arr_l (sv p)).        (* serde_hex.rs 12-24 *)
  Definition ser_sig (s : Signature) : cval := CBytes (arr_l (sv s)).       (* serde_hex.rs 49-62 *)
  Definition ser_trustee (t : Trustee) : cval :=
    CMap [(CText (lit "public_key"), ser_pk (tr_public_key t)); (CText (lit "index"), ser_u8 (tr_index t))].
  Definition ser_keys (m : imap rs_eqb AuthPublicKey) : cval :=
    CMap (map (fun '(k, v) => (CText k, CBytes (sv v))) (sv m)).
  Definition ser_authenticator (a : Authenticator) : cval :=
    CMap [(CText (lit "id"), CBytes (arr_l (au_id a)));
          (CText (lit "public_keys"), ser_keys (au_keys a))].
  Definition ser_authentication (a : Authentication) : cval :=
    CMap [(CText (lit "authenticator"), CBytes (arr_l (an_authenticator a)));
          (CText (lit "signature"), hex_text (an_signature a))].
  Definition ser_encvote (e : EncryptedVote) : cval :=
    CMap [(CText (lit "contest_index"), ser_u (ev_contest e));
          (CText (lit "selections"), ser_list ser_sub (ev_selections e))].
  (* indexmap::serde_seq *)
  Definition ser_shares (s : imap Byte.eqb bytes) : cval :=
    CArr (map (fun '(k, v) => CArr [ser_u8 k; CBytes v]) (sv s)).

  Definition ser_election (t : ElectionTx) : cval :=
    CMap [(CText (lit "id"), ser_id (el_id t));
          (CText (lit "authority_public"), ser_pk (el_authority t));
          (CText (lit "trustees"), ser_list ser_trustee (el_trustees t));
          (CText (lit "trustees_threshold"), ser_u8 (el_threshold t));
          (CText (lit "authenticators"), ser_list ser_authenticator (el_authenticators t));
          (CText (lit "authenticators_threshold"), ser_u8 (el_auth_threshold t));
          (CText (lit "mix_config"), ser_opt ser_mixconfig (el_mix_config t));
          (CText (lit "ballots"), ser_list ser_ballot (el_ballots t));
          (CText (lit "contests"), ser_list ser_contest (el_contests t));
          (CText (lit "properties"), ser_props (el_props t))].
  Definition ser_commitment (t : CommitmentTx) : cval :=
    CMap [(CText (lit "id"), ser_id (kc_id t)); (CText (lit "election"), ser_id (kc_election t));
          (CText (lit "trustee_index"), ser_u8 (kc_trustee t));
          (CText (lit "trustee_public_key"), ser_pk (kc_public t));
          (CText (lit "x25519_public_key"), CBytes (arr_l (kc_x25519 t)));
          (CText (lit "commitment"), ser_sub (kc_commitment t))].
  Definition ser_share (t : ShareTx) : cval :=
    CMap [(CText (lit "id"), ser_id (ks_id t)); (CText (lit "election"), ser_id (ks_election t));
          (CText (lit "trustee_index"), ser_u8 (ks_trustee t));
          (CText (lit "trustee_public_key"), ser_pk (ks_public t));
          (CText (lit "shares"), ser_shares (ks_shares t))].
  Definition ser_pubkey (t : PublicKeyTx) : cval :=
    CMap [(CText (lit "id"), ser_id (kp_id t)); (CText (lit "election"), ser_id (kp_election t));
          (CText (lit "trustee_index"), ser_u8 (kp_trustee t));
          (CText (lit "trustee_public_key"), ser_pk (kp_public t));
          (CText (lit "public_key"), ser_sub (kp_key t));
          (CText (lit "public_key_proof"), ser_sub (kp_proof t))].
  Definition ser_enckey (t : EncryptionKeyTx) : cval :=
    CMap [(CText (lit "id"), ser_id (ek_id t)); (CText (lit "election"), ser_id (ek_election t));
          (CText (lit "authority_public_key"), ser_pk (ek_authority t));
          (CText (lit "encryption_key"), ser_sub (ek_key t))].
  Definition ser_vote (t : VoteTx) : cval :=
    CMap [(CText (lit "id"), ser_id (vt_id t)); (CText (lit "election"), ser_id (vt_election t));
          (CText (lit "ballot_id"), CText (vt_ballot t));
          (CText (lit "encrypted_votes"), ser_list ser_encvote (vt_votes t));
          (CText (lit "anonymous_key"), ser_pk (vt_key t));
          (CText (lit "authentication"), ser_list ser_authentication (vt_authn t))].
  Definition ser_votingend (t : VotingEndTx) : cval :=
    CMap [(CText (lit "id"), ser_id (ve_id t)); (CText (lit "election"), ser_id (ve_election t));
          (CText (lit "authority_public_key"), ser_pk (ve_authority t))].
  Definition ser_mix (t : MixTx) : cval :=
    CMap [(CText (lit "id"), ser_id (mx_id t)); (CText (lit "election_id"), ser_id (mx_election t));
          (CText (lit "prev_mix_id"), ser_opt ser_id (mx_prev t));
          (CText (lit "trustee_index"), ser_u8 (mx_trustee t));
          (CText (lit "trustee_public_key"), ser_pk (mx_public t));
          (CText (lit "mix_index"), ser_u8 (mx_index t));
          (CText (lit "contest_index"), ser_u (mx_contest t));
          (CText (lit "batch"), ser_u (mx_batch t));
          (CText (lit "vote_ids"), ser_list ser_id (mx_votes t));
          (CText (lit "mixed_ciphertexts"), ser_list (ser_list ser_sub) (mx_out t));
          (CText (lit "proof"), ser_sub (mx_proof t))].
  Definition ser_partial (t : PartialTx) : cval :=
    CMap [(CText (lit "id"), ser_id (pd_id t)); (CText (lit "election_id"), ser_id (pd_election t));
          (CText (lit "upstream_id"), ser_id (pd_upstream t));
          (CText (lit "upstream_index"), ser_u (pd_index t));
          (CText (lit "contest_index"), ser_u (pd_contest t));
          (CText (lit "trustee_index"), ser_u8 (pd_trustee t));
          (CText (lit "trustee_public_key"), ser_pk (pd_public t));
          (CText (lit "partial_decryption"), ser_list ser_sub (pd_shares t))].
  Definition ser_decryption (t : DecryptionTx) : cval :=
    CMap [(CText (lit "id"), ser_id (dc_id t)); (CText (lit "election_id"), ser_id (dc_election t));
          (CText (lit "upstream_id"), ser_id (dc_upstream t));
          (CText (lit "upstream_index"), ser_u (dc_index t));
          (CText (lit "contest_index"), ser_u (dc_contest t));
          (CText (lit "trustees"), ser_list ser_u8 (dc_trustees t));
          (CText (lit "decrypted_vote"), ser_list ser_selection (dc_vote t))].

  Definition ser_tx (t : Tx) : cval :=
    match t with
    | XElection t => ser_election t | XCommitment t => ser_commitment t | XShare t => ser_share t
    | XPublicKey t => ser_pubkey t | XEncryptionKey t => ser_enckey t | XVote t => ser_vote t
    | XVotingEnd t => ser_votingend t | XMix t => ser_mix t | XPartial t => ser_partial t
    | XDecryption t => ser_decryption t
    end.

  (** [CryptoBallotTransaction::as_bytes], transaction.rs 216-218: the bytes that are signed *)
  Definition tx_bytes (t : Tx) : bytes := cenc (ser_tx t).

  (** [#[serde(tag = "type", rename_all = "snake_case")]] *)
  Definition tag_name (t : TxType) : rstring :=
    match t with
    | TElection => lit "election" | TKeyGenCommitment => lit "key_gen_commitment"
    | TKeyGenShare => lit "key_gen_share" | TKeyGenPublicKey => lit "key_gen_public_key"
    | TEncryptionKey => lit "encryption_key" | TVote => lit "vote" | TVotingEnd => lit "voting_end"
    | TMix => lit "mix" | TPartialDecryption => lit "partial_decryption" | TDecryption => lit "decryption"
    end.
  Definition ser_stx (s : STx) : cval :=
    CMap [(CText (lit "type"), CText (tag_name (s_type s)));
          (CText (lit "tx"), ser_tx (s_tx s));
          (CText (lit "sig"), ser_sig (s_sig s))].
  (** [SignedTransaction::as_bytes], transaction.rs 124-126 *)
  Definition stx_bytes (s : STx) : bytes := cenc (ser_stx s).
End Ser.

(** ** Deserialisation.  [Err tt] is any serde error. *)
Definition D (A : Type) := cval -> res unit A.
Definition fail {A} : res unit A := Err tt.

Definition de_id : D Identifier := fun v =>     (* transaction.rs 447-455 *)
  match v with CText s => map_err (fun _ => tt) (id_from_str (sv s)) | _ => fail end.
Definition de_u8 : D byte := fun v =>
  match v with CUint n => if (uv n <? 256)%N then Ok (u8_of (uv n)) else fail | _ => fail end.
Definition de_u (k : nat) : D (uN k) := fun v =>
  match v with CUint n => if (uv n <? pow256 k)%N then Ok (u_of k (uv n)) else fail | _ => fail end.
Definition de_bool : D bool := fun v => match v with CBool b => Ok b | _ => fail end.
Definition de_text : D rstring := fun v => match v with CText s => Ok s | _ => fail end.
Definition de_bytes : D bytes := fun v => match v with CBytes b => Ok b | _ => fail end.
Definition de_list {A} (d : D A) : D (list A) := fun v =>
  match v with CArr l => map_res d l | _ => fail end.
Definition de_hex : D bytes := fun v =>
  match v with CText s => ok_or (hex_decode (sv s)) tt | _ => fail end.
(** bytes or hex text: [Hex] of hex_buffer_serde, whose visitor takes both (an item is read out of the buffer of a tagged
    enum, which counts as human readable); [EncryptedShare], trustee.rs 342-380 *)
Definition de_raw : D bytes := fun v =>
  match v with CBytes b => Ok b | CText s => ok_or (hex_decode (sv s)) tt | _ => fail end.
Definition de_sub (P : cval -> bool) : D (sub P) := fun v => ok_or (sub_of P v) tt.

(** struct fields *)
Definition key_is (k : rstring) (p : cval * cval) : bool :=
  match fst p with CText s => rs_eqb k s | _ => false end.
Definition lookup (k : rstring) (m : list (cval * cval)) : list cval := map snd (filter (key_is k) m).
Definition req {A} (d : D A) (k : rstring) (m : list (cval * cval)) : res unit A :=
  match lookup k m with [v] => d v | _ => fail end.
Definition dflt {A} (d : D A) (a : A) (k : rstring) (m : list (cval * cval)) : res unit A :=
  match lookup k m with [] => Ok a | [v] => d v | _ => fail end.
Definition de_opt {A} (d : D A) : D (option A) := fun v =>
  match v with CNull => Ok None | _ => let! a := d v in Ok (Some a) end.

Definition de_imap {K V} (eqb : K -> K -> bool) (dk : D K) (dv : D V) : D (imap eqb V) := fun v =>
  match v with
  | CMap l =>
      let! ps := map_res (fun '(a, b) => let! k := dk a in let! w := dv b in Ok (k, w)) l in
      ok_or (sub_of (nodup_keys eqb) (ibuild eqb ps)) tt
  | _ => fail
  end.
(* indexmap::serde_seq *)
Definition de_imap_seq {K V} (eqb : K -> K -> bool) (dk : D K) (dv : D V) : D (imap eqb V) := fun v =>
  match v with
  | CArr l =>
      let! ps := map_res (fun x => match x with
                                   | CArr [a; b] => let! k := dk a in let! w := dv b in Ok (k, w)
                                   | _ => fail end) l in
      ok_or (sub_of (nodup_keys eqb) (ibuild eqb ps)) tt
  | _ => fail
  end.
Definition de_props : D props := de_imap rs_eqb de_text de_value.
Definition no_props : props := @mk_sub _ (nodup_keys rs_eqb) [] eq_refl.

Definition de_ct : D ContestType := fun v =>
  match v with
  | CText s => ok_or (find (fun c => rs_eqb (ct_name c) s) all_ct) tt
  | _ => fail
  end.
Definition de_struct {A} (f : list (cval * cval) -> res unit A) : D A := fun v =>
  match v with CMap m => f m | _ => fail end.

Definition de_candidate : D Candidate := de_struct (fun m =>
  let! i := req de_text (lit "id") m in
  let! p := dflt de_props no_props (lit "properties") m in
  Ok (mk_candidate i p)).
Definition de_contest : D Contest := de_struct (fun m =>
  let! i := req de_text (lit "id") m in
  let! x := req (de_u 4) (lit "index") m in
  let! t := req de_ct (lit "contest_type") m in
  let! w := req (de_u 4) (lit "num_winners") m in
  let! wi := req de_bool (lit "write_in") m in
  let! cs := req (de_list de_candidate) (lit "candidates") m in
  let! p := dflt de_props no_props (lit "properties") m in
  Ok (mk_contest i x t w wi cs p)).
Definition de_ballot : D Ballot := de_struct (fun m =>
  let! i := req de_text (lit "id") m in
  let! cs := req (de_list (de_u 4)) (lit "contests") m in
  let! p := dflt de_props no_props (lit "properties") m in
  Ok (mk_ballot i cs p)).
Definition de_selection : D Selection := de_struct (fun m =>
  let! w := dflt de_bool false (lit "write_in") m in
  let! s := dflt (de_u 4) (u_of 4 0) (lit "score") m in
  let! t := req de_text (lit "selection") m in
  Ok (mk_selection w s t)).
Definition de_mixconfig : D MixConfig := de_struct (fun m =>
  let! t := req (de_u 8) (lit "timeout_secs") m in
  let! b := dflt (de_opt (de_u 2)) None (lit "batch_size") m in
  Ok (mk_mixconfig t b)).
(** [Uuid::parse_str] of uuid 0.7.4: 32 digits, or with hyphens, the latter possibly as an URN *)
Definition dash (s : bytes) (i : nat) : bool := Byte.eqb (nth i s x00) x2d.
Definition uuid_parse (t : bytes) : option uuid :=
  let s := if Nat.eqb (List.length t) 45 && bytes_eqb (firstn 9 t) (list_byte_of_string "urn:uuid:") then skipn 9 t else t in
  let h := if Nat.eqb (List.length s) 32 then Some s
           else if Nat.eqb (List.length s) 36 && dash s 8 && dash s 13 && dash s 18 && dash s 23
           then Some (firstn 8 s ++ firstn 4 (skipn 9 s) ++ firstn 4 (skipn 14 s) ++ firstn 4 (skipn 19 s) ++ skipn 24 s)
           else None in
  match h with
  | Some h => match hex_decode h with Some b => arr_of 16 b | None => None end
  | None => None
  end.
(** the fields of a tagged enum are read through a buffer that counts as human readable, so that
    a [Uuid] may be a byte string or a text *)
Definition de_uuid : D uuid := fun v =>
  match v with
  | CBytes b => ok_or (arr_of 16 b) tt
  | CText s => ok_or (uuid_parse (sv s)) tt
  | _ => fail
  end.

Section De.
  Context {C : Crypto}.

  Definition de_key : D AuthPublicKey := fun v =>                 (* serde_hex.rs 65-77 *)
    let! b := de_raw v in ok_or (sub_of rsa_pk_ok b) tt.
  Definition de_arr (n : nat) : D (arr n) := fun v =>
    let! b := de_raw v in ok_or (arr_of n b) tt.
  Definition de_pk : D PublicKey := fun v =>
    let! a := de_arr 32 v in ok_or (sub_of ed_pk_ok a) tt.
  Definition de_sig : D Signature := fun v =>
    let! a := de_arr 64 v in ok_or (sub_of ed_sig_ok a) tt.
  Definition de_trustee : D Trustee := de_struct (fun m =>
    let! p := req de_pk (lit "public_key") m in
    let! i := req de_u8 (lit "index") m in
    let! n := dflt (de_u 8) (u_of 8 0) (lit "num_trustees") m in
    let! t := dflt de_u8 x00 (lit "threshold") m in
    Ok (mk_trustee p i n t)).
  Definition de_authenticator : D Authenticator := de_struct (fun m =>
    let! i := req de_uuid (lit "id") m in
    let! k := req (de_imap rs_eqb de_text de_key) (lit "public_keys") m in
    Ok (mk_authenticator i k)).
  Definition de_authentication : D Authentication := de_struct (fun m =>
    let! a := req de_uuid (lit "authenticator") m in
    let! s := req de_hex (lit "signature") m in
    Ok (mk_authentication a s)).
  Definition de_encvote : D EncryptedVote := de_struct (fun m =>
    let! c := req (de_u 4) (lit "contest_index") m in
    let! s := req (de_list (de_sub ct_ok)) (lit "selections") m in
    Ok (mk_encvote c s)).

  Definition de_election : D ElectionTx := de_struct (fun m =>
    let! i := req de_id (lit "id") m in
    let! a := req de_pk (lit "authority_public") m in
    let! ts := req (de_list de_trustee) (lit "trustees") m in
    let! th := req de_u8 (lit "trustees_threshold") m in
    let! aus := req (de_list de_authenticator) (lit "authenticators") m in
    let! ath := req de_u8 (lit "authenticators_threshold") m in
    let! mc := dflt (de_opt de_mixconfig) None (lit "mix_config") m in
    let! bs := req (de_list de_ballot) (lit "ballots") m in
    let! cs := req (de_list de_contest) (lit "contests") m in
    let! p := dflt de_props no_props (lit "properties") m in
    Ok (mk_election i a ts th aus ath mc bs cs p)).
  Definition de_commitment : D CommitmentTx := de_struct (fun m =>
    let! i := req de_id (lit "id") m in
    let! e := req de_id (lit "election") m in
    let! t := req de_u8 (lit "trustee_index") m in
    let! p := req de_pk (lit "trustee_public_key") m in
    let! x := req (de_arr 32) (lit "x25519_public_key") m in
    let! c := req (de_sub commit_ok) (lit "commitment") m in
    Ok (mk_commitment i e t p x c)).
  Definition de_share : D ShareTx := de_struct (fun m =>
    let! i := req de_id (lit "id") m in
    let! e := req de_id (lit "election") m in
    let! t := req de_u8 (lit "trustee_index") m in
    let! p := req de_pk (lit "trustee_public_key") m in
    let! s := req (de_imap_seq Byte.eqb de_u8 de_raw) (lit "shares") m in
    Ok (mk_share i e t p s)).
  Definition de_pubkey : D PublicKeyTx := de_struct (fun m =>
    let! i := req de_id (lit "id") m in
    let! e := req de_id (lit "election") m in
    let! t := req de_u8 (lit "trustee_index") m in
    let! p := req de_pk (lit "trustee_public_key") m in
    let! k := req (de_sub eg_pk_ok) (lit "public_key") m in
    let! q := req (de_sub pkproof_ok) (lit "public_key_proof") m in
    Ok (mk_pubkey i e t p k q)).
  Definition de_enckey : D EncryptionKeyTx := de_struct (fun m =>
    let! i := req de_id (lit "id") m in
    let! e := req de_id (lit "election") m in
    let! a := req de_pk (lit "authority_public_key") m in
    let! k := req (de_sub eg_pk_ok) (lit "encryption_key") m in
    Ok (mk_enckey i e a k)).
  Definition de_vote : D VoteTx := de_struct (fun m =>
    let! i := req de_id (lit "id") m in
    let! e := req de_id (lit "election") m in
    let! b := req de_text (lit "ballot_id") m in
    let! vs := req (de_list de_encvote) (lit "encrypted_votes") m in
    let! k := req de_pk (lit "anonymous_key") m in
    let! a := req (de_list de_authentication) (lit "authentication") m in
    Ok (mk_vote i e b vs k a)).
  Definition de_votingend : D VotingEndTx := de_struct (fun m =>
    let! i := req de_id (lit "id") m in
    let! e := req de_id (lit "election") m in
    let! a := req de_pk (lit "authority_public_key") m in
    Ok (mk_votingend i e a)).
  Definition de_mix : D MixTx := de_struct (fun m =>
    let! i := req de_id (lit "id") m in
    let! e := req de_id (lit "election_id") m in
    let! pm := dflt (de_opt de_id) None (lit "prev_mix_id") m in
    let! t := req de_u8 (lit "trustee_index") m in
    let! p := req de_pk (lit "trustee_public_key") m in
    let! x := req de_u8 (lit "mix_index") m in
    let! c := req (de_u 4) (lit "contest_index") m in
    let! b := req (de_u 4) (lit "batch") m in
    let! vs := req (de_list de_id) (lit "vote_ids") m in
    let! cs := req (de_list (de_list (de_sub ct_ok))) (lit "mixed_ciphertexts") m in
    let! pr := req (de_sub shproof_ok) (lit "proof") m in
    Ok (mk_mix i e pm t p x c b vs cs pr)).
  Definition de_partial : D PartialTx := de_struct (fun m =>
    let! i := req de_id (lit "id") m in
    let! e := req de_id (lit "election_id") m in
    let! u := req de_id (lit "upstream_id") m in
    let! x := req (de_u 2) (lit "upstream_index") m in
    let! c := req (de_u 4) (lit "contest_index") m in
    let! t := req de_u8 (lit "trustee_index") m in
    let! p := req de_pk (lit "trustee_public_key") m in
    let! s := req (de_list (de_sub dshare_ok)) (lit "partial_decryption") m in
    Ok (mk_partial i e u x c t p s)).
  Definition de_decryption : D DecryptionTx := de_struct (fun m =>
    let! i := req de_id (lit "id") m in
    let! e := req de_id (lit "election_id") m in
    let! u := req de_id (lit "upstream_id") m in
    let! x := req (de_u 2) (lit "upstream_index") m in
    let! c := req (de_u 4) (lit "contest_index") m in
    let! t := req (de_list de_u8) (lit "trustees") m in
    let! v := req (de_list de_selection) (lit "decrypted_vote") m in
    Ok (mk_decryption i e u x c t v)).

  Definition de_tx (t : TxType) : D Tx := fun v =>
    match t with
    | TElection => let! x := de_election v in Ok (XElection x)
    | TKeyGenCommitment => let! x := de_commitment v in Ok (XCommitment x)
    | TKeyGenShare => let! x := de_share v in Ok (XShare x)
    | TKeyGenPublicKey => let! x := de_pubkey v in Ok (XPublicKey x)
    | TEncryptionKey => let! x := de_enckey v in Ok (XEncryptionKey x)
    | TVote => let! x := de_vote v in Ok (XVote x)
    | TVotingEnd => let! x := de_votingend v in Ok (XVotingEnd x)
    | TMix => let! x := de_mix v in Ok (XMix x)
    | TPartialDecryption => let! x := de_partial v in Ok (XPartial x)
    | TDecryption => let! x := de_decryption v in Ok (XDecryption x)
    end.

  Definition all_types : list TxType :=
    [TElection; TKeyGenCommitment; TKeyGenShare; TKeyGenPublicKey; TEncryptionKey; TVote;
     TVotingEnd; TMix; TPartialDecryption; TDecryption].
  Definition de_tag : D TxType := fun v =>
    let! s := de_text v in ok_or (find (fun t => rs_eqb (tag_name t) s) all_types) tt.
  Definition de_stx : D STx := de_struct (fun m =>
    let! t := req de_tag (lit "type") m in
    let! x := req (de_tx t) (lit "tx") m in
    let! s := req de_sig (lit "sig") m in
    Ok (mk_stx x s)).

  (** [SignedTransaction::from_bytes], transaction.rs 129-131 *)
  Definition stx_from_bytes (l : bytes) : res unit STx :=
    match cbor_from_slice l with Some v => de_stx v | None => Err tt end.
End De.
