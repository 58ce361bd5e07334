(** * SpecWire: what a transaction looks like on the wire.

    The form is described by shapes, one for every struct declared in the source, and by what an item of a given
    shape stands for: [means sh v w] says that the received item [v], read as [sh], stands for what is written [w].
    Nothing here refers to the model of the serialisers. *)
From Verif Require Import Base Utf8 Cbor Ident Crypto.
From Coq Require Strings.String.
Import String.StringSyntax.
Open Scope list_scope.

Notation name s := (@mk_sub bytes utf8_valid (String.list_byte_of_string s) eq_refl : rstring).

(** ** Hexadecimal text *)
Definition hex_value (c : byte) (n : N) : Prop :=
  (48 <= u8v c <= 57 /\ n = u8v c - 48 \/ 65 <= u8v c <= 70 /\ n = u8v c - 55 \/ 97 <= u8v c <= 102 /\ n = u8v c - 87)%N.
(** two digits for every byte *)
Inductive spells : bytes -> bytes -> Prop :=
| sp_nil : spells [] []
| sp_byte c d x y b s l : hex_value c x -> hex_value d y -> u8v b = (16 * x + y)%N -> spells s l -> spells (c :: d :: s) (b :: l).
Definition no_capital (s : bytes) : Prop := forall c, In c s -> ~ (65 <= u8v c <= 90)%N.

(** 32 digits, or groups of 8, 4, 4, 4 and 12, these possibly after "urn:uuid:" *)
Definition uuid_digits (s h : bytes) : Prop :=
  s = h \/ exists a b c d e, h = a ++ b ++ c ++ d ++ e
    /\ length a = 8 /\ length b = 4 /\ length c = 4 /\ length d = 4 /\ length e = 12
    /\ let g := a ++ x2d :: b ++ x2d :: c ++ x2d :: d ++ x2d :: e in
       s = g \/ s = sv (name "urn:uuid:") ++ g.

(** ** Decimal numbers *)
Definition dig (c : byte) : Prop := (48 <= u8v c <= 57)%N.
Definition some_digits (l : bytes) : Prop := l <> [] /\ forall c, In c l -> dig c.
(** no needless zero in front *)
Definition whole (l : bytes) : Prop := some_digits l /\ (hd x31 l = x30 -> l = [x30]).
Fixpoint worth (a : N) (l : bytes) : N :=
  match l with [] => a | c :: r => worth (10 * a + (u8v c - 48)) r end.
Definition numeral (l : bytes) (n : N) : Prop := whole l /\ worth 0 l = n.

(** A JSON number [s] and the text [t] that is kept of it: a capital E becomes small, the plus sign of an exponent goes, and
    minus zero is zero. *)
Definition fraction (l : bytes) : Prop := l = [] \/ exists d, l = x2e :: d /\ some_digits d.
Definition exponent (l k : bytes) : Prop :=
  l = [] /\ k = []
  \/ exists e g d, (e = x65 \/ e = x45) /\ (g = [] \/ g = [x2b] \/ g = [x2d]) /\ some_digits d
       /\ l = e :: g ++ d /\ k = x65 :: (match g with [x2d] => g | _ => [] end) ++ d.
Definition number (s t : bytes) : Prop :=
  exists g i f e k, (g = [] \/ g = [x2d]) /\ whole i /\ fraction f /\ exponent e k
    /\ s = g ++ i ++ f ++ e
    /\ ((g ++ i ++ f ++ k = [x2d; x30] /\ t = [x30]) \/ (g ++ i ++ f ++ k <> [x2d; x30] /\ t = g ++ i ++ f ++ k)).

(** ** Maps with any number of entries: a key that comes again keeps its first place and takes the last value *)
Inductive dict (R : cval -> cval -> Prop) : list (cval * cval) -> list (cval * cval) -> Prop :=
| d_none : dict R [] []
| d_new m m' k v w : dict R m m' -> ~ In k (map fst m') -> R v w -> dict R (m ++ [(k, v)]) (m' ++ [(k, w)])
| d_again m m1 m2 k u v w : dict R m (m1 ++ (k, u) :: m2) -> R v w -> dict R (m ++ [(k, v)]) (m1 ++ (k, w) :: m2).
Definition text_keys (m : list (cval * cval)) : Prop := forall p, In p m -> exists k, fst p = CText k.

(** ** Application data: JSON, its numbers kept as text under a reserved key *)
Definition reserved : rstring := name "$serde_json::private::Number".
Definition kept (t : rstring) : cval := CMap [(CText reserved, CText t)].
Inductive json : cval -> cval -> Prop :=
| j_null : json CNull CNull
| j_bool b : json (CBool b) (CBool b)
| j_text s : json (CText s) (CText s)
| j_natural n t : numeral (sv t) (uv n) -> json (CUint n) (kept t)
| j_negative n t l : (uv n < 2 ^ 63)%N -> sv t = x2d :: l -> numeral l (uv n + 1) -> json (CNint n) (kept t)
| j_number s t : number (sv s) (sv t) -> json (kept s) (kept t)
| j_list l l' : Forall2 json l l' -> json (CArr l) (CArr l')
| j_object m m' : text_keys m -> (forall v r, m <> (CText reserved, v) :: r) -> dict json m m' -> json (CMap m) (CMap m').

(** ** Shapes *)
Inductive mode :=
| Must               (* present once *)
| May (d : cval)     (* absent: stands for [d] *)
| NonEmpty           (* not written when empty *)
| Unused.            (* read, not part of the transaction *)
Inductive shape :=
| Num (k : nat)                              (* unsigned, [k] bytes *)
| Text
| Flag
| Word (l : list rstring)
| HexOf (P : bytes -> Prop)                  (* hexadecimal text of such bytes *)
| Uid                                        (* sixteen bytes, or the text of a UUID *)
| Raw (P : bytes -> Prop)                    (* such bytes, or their hexadecimal text *)
| Lib (P : cval -> bool)                     (* left to a library *)
| Json
| Opt (a : shape)                            (* or null *)
| Seq (a : shape)
| Dict (a : shape)
| Pairs (a b : shape)                        (* a map as a list of pairs *)
| Rec (fs : list (rstring * mode * shape)).  (* a struct *)

Definition absent (k : rstring) (m : list (cval * cval)) : Prop := forall v, ~ In (CText k, v) m.
Definition once (k : rstring) (m : list (cval * cval)) (v : cval) : Prop :=
  exists m1 m2, m = m1 ++ (CText k, v) :: m2 /\ absent k (m1 ++ m2).
Definition field (R : cval -> cval -> Prop) (k : rstring) (o : mode) (m h : list (cval * cval)) : Prop :=
  let here := exists v w, once k m v /\ R v w /\ h = [(CText k, w)] in
  match o with
  | Must => here
  | May d => absent k m /\ h = [(CText k, d)] \/ here
  | NonEmpty => (absent k m \/ exists v, once k m v /\ R v (CMap [])) /\ h = []
                \/ here /\ h <> [(CText k, CMap [])]
  | Unused => (absent k m \/ exists v w, once k m v /\ R v w) /\ h = []
  end.

Fixpoint means (sh : shape) (v w : cval) {struct sh} : Prop :=
  match sh with
  | Num k => exists n, v = CUint n /\ w = v /\ (uv n < pow256 k)%N
  | Text => exists s, v = CText s /\ w = v
  | Flag => exists b, v = CBool b /\ w = v
  | Word l => exists s, In s l /\ v = CText s /\ w = v
  | HexOf P => exists s t b, v = CText s /\ w = CText t /\ spells (sv s) b /\ spells (sv t) b /\ no_capital (sv t) /\ P b
  | Uid => exists b, length b = 16 /\ w = CBytes b
             /\ (v = w \/ exists s h, v = CText s /\ uuid_digits (sv s) h /\ spells h b)
  | Raw P => exists b, w = CBytes b /\ P b /\ (v = w \/ exists s, v = CText s /\ spells (sv s) b)
  | Lib P => v = w /\ P v = true
  | Json => json v w
  | Opt a => v = CNull /\ w = CNull \/ v <> CNull /\ means a v w
  | Seq a => exists l l', v = CArr l /\ w = CArr l' /\ Forall2 (means a) l l'
  | Dict a => exists m m', v = CMap m /\ w = CMap m' /\ text_keys m /\ dict (means a) m m'
  | Pairs a b => exists m m', v = CArr (map (fun p => CArr [fst p; snd p]) m)
                   /\ w = CArr (map (fun p => CArr [fst p; snd p]) m')
                   /\ (forall p, In p m -> means a (fst p) (fst p)) /\ dict (means b) m m'
  | Rec fs => exists m m', v = CMap m /\ w = CMap m'
      /\ (fix go (fs : list (rstring * mode * shape)) (m' : list (cval * cval)) : Prop :=
            match fs with
            | [] => m' = []
            | (k, o, a) :: r => exists h m1, m' = h ++ m1 /\ field (means a) k o m h /\ go r m1
            end) fs m'
  end.

(** ** The structs *)
Definition must (k : rstring) (a : shape) := (k, Must, a).
Definition may (k : rstring) (d : cval) (a : shape) := (k, May d, a).
Definition zero : cval := CUint (u_of 8 0).

(** 32 bytes, of which the sixteenth is a transaction type (transaction.rs 406-445) *)
Definition identifier : shape := HexOf (fun b => length b = 32 /\ (1 <= u8v (nth 15 b x00) <= 10)%N).
Definition contest_types : list rstring :=     (* election.rs: ContestType, snake case *)
  [name "plurality"; name "score"; name "approval"; name "condorcet"; name "borda"; name "borda_classic"; name "borda_dowdall";
   name "borda_modified_classic"; name "schulze_winning"; name "schulze_ratio"; name "schulze_margin"].
Definition data : shape := Dict Json.
Definition candidate : shape := Rec [must (name "id") Text; (name "properties", NonEmpty, data)].
Definition contest : shape :=
  Rec [must (name "id") Text; must (name "index") (Num 4); must (name "contest_type") (Word contest_types);
       must (name "num_winners") (Num 4); must (name "write_in") Flag; must (name "candidates") (Seq candidate);
       (name "properties", NonEmpty, data)].
Definition ballot : shape :=
  Rec [must (name "id") Text; must (name "contests") (Seq (Num 4)); (name "properties", NonEmpty, data)].
Definition selection : shape :=
  Rec [may (name "write_in") (CBool false) Flag; may (name "score") zero (Num 4); must (name "selection") Text].
Definition mix_config : shape :=
  Rec [must (name "timeout_secs") (Num 8); may (name "batch_size") CNull (Opt (Num 2))].

Section Wire.
  Context {C : Crypto}.
  Definition ed_key : shape := Raw (fun b => exists a : arr 32, arr_l a = b /\ ed_pk_ok a = true).
  Definition ed_sig : shape := Raw (fun b => exists a : arr 64, arr_l a = b /\ ed_sig_ok a = true).
  Definition x_key : shape := Raw (fun b => length b = 32).
  Definition rsa_key : shape := Raw (fun b => rsa_pk_ok b = true).

  Definition trustee : shape :=
    Rec [must (name "public_key") ed_key; must (name "index") (Num 1);
         (name "num_trustees", Unused, Num 8); (name "threshold", Unused, Num 1)].
  Definition authenticator : shape := Rec [must (name "id") Uid; must (name "public_keys") (Dict rsa_key)].
  Definition authentication : shape :=
    Rec [must (name "authenticator") Uid; must (name "signature") (HexOf (fun _ => True))].
  Definition encrypted_vote : shape :=
    Rec [must (name "contest_index") (Num 4); must (name "selections") (Seq (Lib ct_ok))].

  Definition tx_shape (t : TxType) : shape :=
    let id := must (name "id") identifier in
    let election := must (name "election") identifier in
    let election_id := must (name "election_id") identifier in
    let index := must (name "trustee_index") (Num 1) in
    let key := must (name "trustee_public_key") ed_key in
    match t with
    | TElection =>
        Rec [id; must (name "authority_public") ed_key; must (name "trustees") (Seq trustee);
             must (name "trustees_threshold") (Num 1); must (name "authenticators") (Seq authenticator);
             must (name "authenticators_threshold") (Num 1); may (name "mix_config") CNull (Opt mix_config);
             must (name "ballots") (Seq ballot); must (name "contests") (Seq contest);
             may (name "properties") (CMap []) data]
    | TKeyGenCommitment =>
        Rec [id; election; index; key; must (name "x25519_public_key") x_key; must (name "commitment") (Lib commit_ok)]
    | TKeyGenShare => Rec [id; election; index; key; must (name "shares") (Pairs (Num 1) (Raw (fun _ => True)))]
    | TKeyGenPublicKey =>
        Rec [id; election; index; key; must (name "public_key") (Lib eg_pk_ok); must (name "public_key_proof") (Lib pkproof_ok)]
    | TEncryptionKey =>
        Rec [id; election; must (name "authority_public_key") ed_key; must (name "encryption_key") (Lib eg_pk_ok)]
    | TVote =>
        Rec [id; election; must (name "ballot_id") Text; must (name "encrypted_votes") (Seq encrypted_vote);
             must (name "anonymous_key") ed_key; must (name "authentication") (Seq authentication)]
    | TVotingEnd => Rec [id; election; must (name "authority_public_key") ed_key]
    | TMix =>
        Rec [id; election_id; may (name "prev_mix_id") CNull (Opt identifier); index; key; must (name "mix_index") (Num 1);
             must (name "contest_index") (Num 4); must (name "batch") (Num 4); must (name "vote_ids") (Seq identifier);
             must (name "mixed_ciphertexts") (Seq (Seq (Lib ct_ok))); must (name "proof") (Lib shproof_ok)]
    | TPartialDecryption =>
        Rec [id; election_id; must (name "upstream_id") identifier; must (name "upstream_index") (Num 2);
             must (name "contest_index") (Num 4); index; key; must (name "partial_decryption") (Seq (Lib dshare_ok))]
    | TDecryption =>
        Rec [id; election_id; must (name "upstream_id") identifier; must (name "upstream_index") (Num 2);
             must (name "contest_index") (Num 4); must (name "trustees") (Seq (Num 1));
             must (name "decrypted_vote") (Seq selection)]
    end.
  Definition tag (t : TxType) : rstring :=
    match t with
    | TElection => name "election" | TKeyGenCommitment => name "key_gen_commitment" | TKeyGenShare => name "key_gen_share"
    | TKeyGenPublicKey => name "key_gen_public_key" | TEncryptionKey => name "encryption_key" | TVote => name "vote"
    | TVotingEnd => name "voting_end" | TMix => name "mix" | TPartialDecryption => name "partial_decryption"
    | TDecryption => name "decryption"
    end.
  (** a signed transaction of type [t] *)
  Definition signed (t : TxType) : shape :=
    Rec [must (name "type") (Word [tag t]); must (name "tx") (tx_shape t); must (name "sig") ed_sig].
End Wire.
