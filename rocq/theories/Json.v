(** * Json: transactions as JSON text.

    serde_json 1.0.64 as used by the REST interface (cryptoballot_server/src/api.rs 25-68) and the client
    (cryptoballot_cli/src/rest.rs, command_post_transaction.rs, and the commands that print a
    transaction), with the features listed in Value.v.
    Dependency code, modelled from its documented behaviour: the two writers, the reader with its
    nesting limit of 127, and the buffer through which tagged enums are read.
    Simplifications: a value of a library type is written as its CBOR image would be (bytes as an
    array of numbers), with null for floats and other images that JSON does not have; a document
    that is not UTF-8 outside of a string is refused anyway. *)
From Verif Require Import Base BaseFacts Hex HexFacts Utf8 Cbor Value Ident Crypto Types Serde.
From Coq Require Import Strings.String.
Open Scope list_scope.

(** ** Writing *)
(** [format_escaped_str] *)
Definition esc (b : byte) : bytes :=
  if Byte.eqb b x22 then [x5c; x22]
  else if Byte.eqb b x5c then [x5c; x5c]
  else if negb (in_range 0 31 b) then [b]
  else if Byte.eqb b x08 then [x5c; x62]
  else if Byte.eqb b x09 then [x5c; x74]
  else if Byte.eqb b x0a then [x5c; x6e]
  else if Byte.eqb b x0c then [x5c; x66]
  else if Byte.eqb b x0d then [x5c; x72]
  else [x5c; x75; x30; x30] ++ hex_byte b.
Definition jquote (s : bytes) : bytes := x22 :: flat_map esc s ++ [x22].
(** the elements of an array or object: [w] before each, commas between *)
Fixpoint commas (w : bytes) (l : list bytes) : bytes :=
  match l with [] => [] | x :: l' => w ++ x ++ match l' with [] => [] | _ => x2c :: commas w l' end end.
(** [nl n]: what is written before an element at depth [n]; [colon]: between key and value *)
Fixpoint jwrite (nl : nat -> bytes) (colon : bytes) (n : nat) (j : jval) : bytes :=
  match j with
  | JNull => list_byte_of_string "null"
  | JBool true => list_byte_of_string "true"
  | JBool false => list_byte_of_string "false"
  | JNum s => sv s
  | JStr s => jquote (sv s)
  | JArr l => match l with
              | [] => [x5b; x5d]
              | _ => x5b :: commas (nl (S n)) (map (jwrite nl colon (S n)) l) ++ nl n ++ [x5d]
              end
  | JObj l => match l with
              | [] => [x7b; x7d]
              | _ => x7b :: commas (nl (S n))
                       (map (fun p => match p with (k, v) => jquote (sv k) ++ colon ++ jwrite nl colon (S n) v end) l)
                     ++ nl n ++ [x7d]
              end
  end.
(** [serde_json::to_string] and [serde_json::to_string_pretty] *)
Definition jprint (j : jval) : bytes := jwrite (fun _ => []) [x3a] 0 j.
Definition jpretty (j : jval) : bytes := jwrite (fun n => x0a :: repeat x20 (2 * n)) [x3a; x20] 0 j.

(** ** Reading *)
Definition is_ws (b : byte) : bool := Byte.eqb b x20 || Byte.eqb b x0a || Byte.eqb b x09 || Byte.eqb b x0d.
Fixpoint skip_ws (l : bytes) : bytes :=
  match l with b :: r => if is_ws b then skip_ws r else l | [] => [] end.
(** four hexadecimal digits *)
Definition hex4 (a b c d : byte) : option N :=
  match hex_decode [a; b; c; d] with Some [h; l] => Some (256 * u8v h + u8v l)%N | _ => None end.
(** UTF-8 encoding of a character *)
Definition utf8_enc (n : N) : bytes :=
  (if n <? 128 then [u8_of n]
   else if n <? 2048 then [u8_of (192 + n / 64); u8_of (128 + n mod 64)]
   else if n <? 65536 then [u8_of (224 + n / 4096); u8_of (128 + (n / 64) mod 64); u8_of (128 + n mod 64)]
   else [u8_of (240 + n / 262144); u8_of (128 + (n / 4096) mod 64); u8_of (128 + (n / 64) mod 64); u8_of (128 + n mod 64)])%N.
Definition surr_hi (n : N) : bool := ((55296 <=? n) && (n <=? 56319))%N.
Definition surr_lo (n : N) : bool := ((56320 <=? n) && (n <=? 57343))%N.
(** the escapes of one character *)
Definition unesc (b : byte) : option byte :=
  if Byte.eqb b x22 then Some x22 else if Byte.eqb b x5c then Some x5c else if Byte.eqb b x2f then Some x2f
  else if Byte.eqb b x62 then Some x08 else if Byte.eqb b x66 then Some x0c else if Byte.eqb b x6e then Some x0a
  else if Byte.eqb b x72 then Some x0d else if Byte.eqb b x74 then Some x09 else None.
(** [parse_str], after the opening quote *)
Fixpoint jchars (l : bytes) : option (bytes * bytes) :=
  let put p o := match o with Some (s, r) => Some (p ++ s, r) | None => None end in
  match l with
  | [] => None
  | b :: l1 =>
      if Byte.eqb b x22 then Some ([], l1)
      else if Byte.eqb b x5c then
        match l1 with
        | e :: l2 =>
            if Byte.eqb e x75 then
              match l2 with
              | a1 :: a2 :: a3 :: a4 :: l3 =>
                  match hex4 a1 a2 a3 a4 with
                  | None => None
                  | Some n =>
                      if surr_lo n then None
                      else if surr_hi n then
                        match l3 with
                        | q :: u :: b1 :: b2 :: b3 :: b4 :: l4 =>
                            if Byte.eqb q x5c && Byte.eqb u x75 then
                              match hex4 b1 b2 b3 b4 with
                              | Some m => if surr_lo m
                                          then put (utf8_enc (65536 + (n - 55296) * 1024 + (m - 56320))) (jchars l4)
                                          else None
                              | None => None
                              end
                            else None
                        | _ => None
                        end
                      else put (utf8_enc n) (jchars l3)
                  end
              | _ => None
              end
            else match unesc e with Some c => put [c] (jchars l2) | None => None end
        | [] => None
        end
      else if in_range 0 31 b then None
      else put [b] (jchars l1)
  end.
Definition jstring (l : bytes) : option (rstring * bytes) :=
  match jchars l with
  | Some (s, r) => match sub_of utf8_valid s with Some t => Some (t, r) | None => None end
  | None => None
  end.
(** the elements of an array or object, of which there is one at least; [f]: a bound on their number *)
Fixpoint jitems {A} (dec : bytes -> option (A * bytes)) (close : byte) (f : nat) (l : bytes) : option (list A * bytes) :=
  match f with
  | O => None
  | S f' =>
      match dec l with
      | Some (x, r) =>
          match skip_ws r with
          | b :: r' =>
              if Byte.eqb b close then Some ([x], r')
              else if Byte.eqb b x2c then match jitems dec close f' r' with Some (xs, r'') => Some (x :: xs, r'') | None => None end
              else None
          | [] => None
          end
      | None => None
      end
  end.
Definition jseq {A} (dec : bytes -> option (A * bytes)) (close : byte) (l : bytes) : option (list A * bytes) :=
  match skip_ws l with
  | b :: r => if Byte.eqb b close then Some ([], r) else jitems dec close (List.length l) l
  | [] => None
  end.
Definition jpair (dec : bytes -> option (jval * bytes)) (l : bytes) : option ((rstring * jval) * bytes) :=
  match skip_ws l with
  | b :: l1 =>
      if Byte.eqb b x22 then
        match jstring l1 with
        | Some (k, l2) =>
            match skip_ws l2 with
            | c :: l3 => if Byte.eqb c x3a then match dec l3 with Some (v, r) => Some ((k, v), r) | None => None end else None
            | [] => None
            end
        | None => None
        end
      else None
  | [] => None
  end.
Definition expect (w : bytes) (j : jval) (l : bytes) : option (jval * bytes) :=
  if bytes_eqb (firstn (List.length w) l) w then Some (j, skipn (List.length w) l) else None.
Definition jnumber (l : bytes) : option (jval * bytes) :=
  match scan_num l with
  | Some (t, r) => match num_text t with Some j => Some (j, r) | None => None end
  | None => None
  end.
(** one value; [d]: the remaining depth *)
Fixpoint jdec (d : nat) (l : bytes) : option (jval * bytes) :=
  match skip_ws l with
  | [] => None
  | b :: r =>
      if Byte.eqb b x22 then match jstring r with Some (s, r') => Some (JStr s, r') | None => None end
      else if Byte.eqb b x5b then
        match d with
        | O => None
        | S d' => match jseq (jdec d') x5d r with Some (xs, r') => Some (JArr xs, r') | None => None end
        end
      else if Byte.eqb b x7b then
        match d with
        | O => None
        | S d' => match jseq (jpair (jdec d')) x7d r with Some (xs, r') => Some (JObj xs, r') | None => None end
        end
      else if Byte.eqb b x6e then expect (list_byte_of_string "ull") JNull r
      else if Byte.eqb b x74 then expect (list_byte_of_string "rue") (JBool true) r
      else if Byte.eqb b x66 then expect (list_byte_of_string "alse") (JBool false) r
      else jnumber (b :: r)
  end.
(** [serde_json::from_str] *)
Definition jparse (l : bytes) : option jval :=
  match jdec max_depth l with
  | Some (j, r) => match skip_ws r with [] => Some j | _ => None end
  | None => None
  end.
(** the buffer ([Content] of serde) *)
Fixpoint content (j : jval) : cval :=
  match j with
  | JNull => CNull
  | JBool b => CBool b
  | JNum s => match as_int (sv s) with Some n => n | None => CMap [(CText token, CText s)] end
  | JStr s => CText s
  | JArr l => CArr (map content l)
  | JObj l => CMap (map (fun p => match p with (k, v) => (CText k, content v) end) l)
  end.

(** ** Transactions *)
Lemma digit_ascii b : digit b = true -> in_range 0 127 b = true.
Proof. unfold digit, in_range. rewrite !andb_true_iff, !N.leb_le. lia. Qed.
Lemma digits_utf8 l : forallb digit l = true -> utf8_valid l = true.
Proof.
  induction l as [|b l IH]; cbn [forallb]; intros H; [reflexivity|]. apply andb_true_iff in H as [H1 H2].
  cbn [utf8_valid]. rewrite (digit_ascii _ H1). apply IH, H2.
Qed.
Lemma dec_utf8 f : forall n, utf8_valid (dec_fuel f n) = true.
Proof.
  intros n. apply digits_utf8. revert n. induction f as [|f IH]; intros n; cbn [dec_fuel]; [reflexivity|].
  assert (D : forall m, (m < 10)%N -> digit (u8_of (48 + m)) = true).
  { intros m H. unfold digit, in_range. rewrite u8v_u8_of, N.mod_small by lia. rewrite andb_true_iff, !N.leb_le. lia. }
  destruct (N.ltb_spec n 10).
  - cbn [forallb]. rewrite D by assumption. reflexivity.
  - rewrite forallb_app, IH. cbn [forallb]. rewrite D by (apply N.mod_lt; lia). reflexivity.
Qed.
Lemma neg_utf8 f n : utf8_valid (x2d :: dec_fuel f n) = true.
Proof. exact (dec_utf8 f n). Qed.
(** the JSON form of whatever is written without looking at the format *)
Fixpoint to_json (v : cval) : jval :=
  match v with
  | CUint n => JNum (mk_sub (dec n) (norm_true (dec_utf8 20 (uv n))))
  | CNint n => JNum (mk_sub (neg_text n) (norm_true (neg_utf8 20 (uv n + 1))))
  | CBytes l => JArr (map (fun b => JNum (mk_sub (dec_fuel 20 (u8v b)) (norm_true (dec_utf8 20 (u8v b))))) l)
  | CText s => JStr s
  | CArr l => JArr (map to_json l)
  | CMap l => JObj (flat_map (fun p => match p with (CText k, w) => [(k, to_json w)] | _ => [] end) l)
  | CBool b => JBool b
  | _ => JNull
  end.
Definition jlist {A} (f : A -> jval) (l : list A) : jval := JArr (map f l).

(** [Uuid] as text with hyphens *)
Definition uuid_hyphens (b : bytes) : bytes :=
  hex_encode (firstn 4 b) ++ x2d :: hex_encode (firstn 2 (skipn 4 b)) ++ x2d :: hex_encode (firstn 2 (skipn 6 b))
  ++ x2d :: hex_encode (firstn 2 (skipn 8 b)) ++ x2d :: hex_encode (skipn 10 b).
Lemma hyphens_utf8 b : utf8_valid (uuid_hyphens b) = true.
Proof.
  assert (A : forall a r, utf8_valid r = true -> utf8_valid (hex_encode a ++ r) = true).
  { intros a r R. induction a as [|c a IH]; [exact R|].
    change (hex_encode (c :: a) ++ r) with (hex_byte c ++ (hex_encode a ++ r)).
    pose proof (byte_sweep (fun b => forallb (in_range 0 127) (hex_byte b)) ltac:(vm_compute; reflexivity) c) as H.
    unfold hex_byte in *. cbn [forallb app] in *. apply andb_true_iff in H as [H1 H]. apply andb_true_iff in H as [H2 _].
    cbn [utf8_valid]. rewrite H1, H2. exact IH. }
  unfold uuid_hyphens. do 4 (apply A; match goal with |- utf8_valid (x2d :: ?r) = true => change (utf8_valid r = true) end). apply hex_utf8.
Qed.
Definition j_uuid (u : uuid) : jval := JStr (mk_sub (uuid_hyphens (arr_l u)) (norm_true (hyphens_utf8 (arr_l u)))).

Definition j_props (p : props) : jval := JObj (map (fun '(k, v) => (k, sv v)) (sv p)).
Definition j_skip (k : rstring) (p : props) : list (rstring * jval) :=
  match sv p with [] => [] | _ => [(k, j_props p)] end.
Definition j_candidate (c : Candidate) : jval :=
  JObj ([(lit "id", JStr (cand_id c))] ++ j_skip (lit "properties") (cand_props c)).
Definition j_contest (c : Contest) : jval :=
  JObj ([(lit "id", JStr (cont_id c)); (lit "index", to_json (ser_u (cont_index c)));
         (lit "contest_type", JStr (ct_name (cont_type c)));
         (lit "num_winners", to_json (ser_u (cont_winners c)));
         (lit "write_in", JBool (cont_write_in c));
         (lit "candidates", jlist j_candidate (cont_candidates c))]
        ++ j_skip (lit "properties") (cont_props c)).
Definition j_ballot (b : Ballot) : jval :=
  JObj ([(lit "id", JStr (bal_id b)); (lit "contests", to_json (ser_list ser_u (bal_contests b)))]
        ++ j_skip (lit "properties") (bal_props b)).

Section J.
  Context {C : Crypto}.
  (* serde_hex.rs: hex text, because JSON is human readable; the rest as in Serde.v *)
  Definition h_pk (p : PublicKey) : cval := hex_text (arr_l (sv p)).
  Definition h_sig (s : Signature) : cval := hex_text (arr_l (sv s)).
  Definition h_trustee (t : Trustee) : cval :=
    CMap [(CText (lit "public_key"), h_pk (tr_public_key t)); (CText (lit "index"), ser_u8 (tr_index t))].
  Definition h_keys (m : imap rs_eqb AuthPublicKey) : cval :=
    CMap (map (fun '(k, v) => (CText k, hex_text (sv v))) (sv m)).
  Definition h_commitment (t : CommitmentTx) : cval :=
    CMap [(CText (lit "id"), ser_id (kc_id t)); (CText (lit "election"), ser_id (kc_election t));
          (CText (lit "trustee_index"), ser_u8 (kc_trustee t));
          (CText (lit "trustee_public_key"), h_pk (kc_public t));
          (CText (lit "x25519_public_key"), hex_text (arr_l (kc_x25519 t)));
          (CText (lit "commitment"), ser_sub (kc_commitment t))].
  Definition h_pubkey (t : PublicKeyTx) : cval :=
    CMap [(CText (lit "id"), ser_id (kp_id t)); (CText (lit "election"), ser_id (kp_election t));
          (CText (lit "trustee_index"), ser_u8 (kp_trustee t));
          (CText (lit "trustee_public_key"), h_pk (kp_public t));
          (CText (lit "public_key"), ser_sub (kp_key t));
          (CText (lit "public_key_proof"), ser_sub (kp_proof t))].
  Definition h_enckey (t : EncryptionKeyTx) : cval :=
    CMap [(CText (lit "id"), ser_id (ek_id t)); (CText (lit "election"), ser_id (ek_election t));
          (CText (lit "authority_public_key"), h_pk (ek_authority t));
          (CText (lit "encryption_key"), ser_sub (ek_key t))].
  Definition h_votingend (t : VotingEndTx) : cval :=
    CMap [(CText (lit "id"), ser_id (ve_id t)); (CText (lit "election"), ser_id (ve_election t));
          (CText (lit "authority_public_key"), h_pk (ve_authority t))].
  Definition h_mix (t : MixTx) : cval :=
    CMap [(CText (lit "id"), ser_id (mx_id t)); (CText (lit "election_id"), ser_id (mx_election t));
          (CText (lit "prev_mix_id"), ser_opt ser_id (mx_prev t));
          (CText (lit "trustee_index"), ser_u8 (mx_trustee t));
          (CText (lit "trustee_public_key"), h_pk (mx_public t));
          (CText (lit "mix_index"), ser_u8 (mx_index t));
          (CText (lit "contest_index"), ser_u (mx_contest t));
          (CText (lit "batch"), ser_u (mx_batch t));
          (CText (lit "vote_ids"), ser_list ser_id (mx_votes t));
          (CText (lit "mixed_ciphertexts"), ser_list (ser_list ser_sub) (mx_out t));
          (CText (lit "proof"), ser_sub (mx_proof t))].
  Definition h_partial (t : PartialTx) : cval :=
    CMap [(CText (lit "id"), ser_id (pd_id t)); (CText (lit "election_id"), ser_id (pd_election t));
          (CText (lit "upstream_id"), ser_id (pd_upstream t));
          (CText (lit "upstream_index"), ser_u (pd_index t));
          (CText (lit "contest_index"), ser_u (pd_contest t));
          (CText (lit "trustee_index"), ser_u8 (pd_trustee t));
          (CText (lit "trustee_public_key"), h_pk (pd_public t));
          (CText (lit "partial_decryption"), ser_list ser_sub (pd_shares t))].
  (* the types that have neither properties nor UUIDs nor shares *)
  Definition h_tx (t : Tx) : cval :=
    match t with
    | XCommitment t => h_commitment t | XPublicKey t => h_pubkey t | XEncryptionKey t => h_enckey t
    | XVotingEnd t => h_votingend t | XMix t => h_mix t | XPartial t => h_partial t
    | t => ser_tx t
    end.
  Definition j_authenticator (a : Authenticator) : jval :=
    JObj [(lit "id", j_uuid (au_id a)); (lit "public_keys", to_json (h_keys (au_keys a)))].
  Definition j_authentication (a : Authentication) : jval :=
    JObj [(lit "authenticator", j_uuid (an_authenticator a)); (lit "signature", to_json (hex_text (an_signature a)))].
  (* trustee.rs 331-344: hex text, because JSON is human readable *)
  Definition j_shares (s : imap Byte.eqb bytes) : jval :=
    JArr (map (fun '(k, v) => JArr [to_json (ser_u8 k); to_json (hex_text v)]) (sv s)).
  Definition j_election (t : ElectionTx) : jval :=
    JObj [(lit "id", to_json (ser_id (el_id t)));
          (lit "authority_public", to_json (h_pk (el_authority t)));
          (lit "trustees", to_json (ser_list h_trustee (el_trustees t)));
          (lit "trustees_threshold", to_json (ser_u8 (el_threshold t)));
          (lit "authenticators", jlist j_authenticator (el_authenticators t));
          (lit "authenticators_threshold", to_json (ser_u8 (el_auth_threshold t)));
          (lit "mix_config", to_json (ser_opt ser_mixconfig (el_mix_config t)));
          (lit "ballots", jlist j_ballot (el_ballots t));
          (lit "contests", jlist j_contest (el_contests t));
          (lit "properties", j_props (el_props t))].
  Definition j_share (t : ShareTx) : jval :=
    JObj [(lit "id", to_json (ser_id (ks_id t))); (lit "election", to_json (ser_id (ks_election t)));
          (lit "trustee_index", to_json (ser_u8 (ks_trustee t)));
          (lit "trustee_public_key", to_json (h_pk (ks_public t)));
          (lit "shares", j_shares (ks_shares t))].
  Definition j_vote (t : VoteTx) : jval :=
    JObj [(lit "id", to_json (ser_id (vt_id t))); (lit "election", to_json (ser_id (vt_election t)));
          (lit "ballot_id", JStr (vt_ballot t));
          (lit "encrypted_votes", to_json (ser_list ser_encvote (vt_votes t)));
          (lit "anonymous_key", to_json (h_pk (vt_key t)));
          (lit "authentication", jlist j_authentication (vt_authn t))].
  Definition j_tx (t : Tx) : jval :=
    match t with
    | XElection t => j_election t | XShare t => j_share t | XVote t => j_vote t
    | _ => to_json (h_tx t)
    end.
  Definition j_stx (x : STx) : jval :=
    JObj [(lit "type", JStr (tag_name (s_type x))); (lit "tx", j_tx (s_tx x)); (lit "sig", to_json (h_sig (s_sig x)))].

  (** [serde_json::to_string] and [serde_json::from_str] of a [SignedTransaction], and of a list of them *)
  Definition stx_json (x : STx) : bytes := jprint (j_stx x).
  Definition stx_pretty (x : STx) : bytes := jpretty (j_stx x).
  Definition stx_from_json (t : bytes) : res unit STx :=
    match jparse t with Some j => de_stx (content j) | None => Err tt end.
  Definition stxs_json (l : list STx) : bytes := jprint (jlist j_stx l).
  Definition stxs_from_json (t : bytes) : res unit (list STx) :=
    match jparse t with Some j => de_list de_stx (content j) | None => Err tt end.
End J.
