(** * SpecRun: executions of one election by honest participants, in any order.

    The trustees' nodes and the authority's node answer recorded transactions with what
    [generate_transactions] gives them, against the ledger as they saw it, which may be an earlier
    one; an answer may be recorded at any later time, or never.  Voters encrypt under the recorded key.
    Everything that belongs to other elections is arbitrary, as long as it was accepted. *)
From Verif Require Import Base Utf8 Cbor Ident BuildId Crypto Types Store SpecStore Validate SpecValid SpecHist
  Encrypt Trustee Tasks SpecTasks SpecService SpecThreshold.
From Coq Require Import Sorting.Permutation.
Open Scope list_scope.

Section Spec.
  Context {C : Crypto} {TC : TCrypto}.
  Context {R : Type} (eg_encrypt : EGPublicKey -> R -> bytes -> Ciphertext * R).
  Variables (dbg : bool) (el : ElectionTx) (T : people) (contests : list u32).
  Notation e := (el_id el).

  (** [T] are the trustees of the election, by increasing index, with their secret keys *)
  Record set_up : Prop := {
    su_listed : Permutation (map (fun p => (tr_index (fst p), tr_public_key (fst p))) T)
                            (map (fun t => (tr_index t, tr_public_key t)) (el_trustees el));
    su_keys : forall p, In p T -> tr_public_key (fst p) = ed_public (snd p);
    su_distinct : NoDup (map (fun p => tr_public_key (fst p)) T);
    su_order : forall a p b q d, T = a ++ p :: b ++ q :: d -> (u8v (tr_index (fst p)) < u8v (tr_index (fst q)))%N;
    su_ceremony : ceremony T (el_threshold el);
    (* the elections that the nodes can finish: no mixnet, or a single mix; see C44 *)
    su_mix : el_mix_config el = None \/ el_threshold el = x01;
    su_contests : el_contests el <> [];
    su_votes : NoDup contests
  }.
  (** the nodes: of the trustees, and of the authority, which may be one of them *)
  Definition node (sk : ed_secret) : Prop :=
    (exists p, In p T /\ snd p = sk)
    \/ (ed_public sk = el_authority el /\ forall p, In p T -> tr_public_key (fst p) = ed_public sk -> snd p = sk).

  Definition inside (x : STx) : Prop := id_election (s_id x) = id_election e.
  Definition outside (x : STx) : Prop := ~ inside x /\ named_election (s_tx x) <> Some e.

  (** every entry of the vote is an encryption of some selections under the recorded key *)
  Definition writable (s : Selection) : Prop := (N.of_nat (List.length (sv (sel_text s))) < 2 ^ 64)%N.
  Definition encrypted (key : EGPublicKey) (ev : EncryptedVote) (sels : list Selection) : Prop :=
    Forall writable sels /\ exists rng, ev_selections ev = fst (encrypt_vote eg_encrypt key sels rng).
  Definition votes_in (h : list STx) (x : STx) : Prop := In x h /\ in_range e TVote x.
  Record voter (h : list STx) (v : VoteTx) : Prop := {
    vo_election : vt_election v = e;
    vo_key : exists k, at_id h (slot0 e TEncryptionKey) (XEncryptionKey k)
               /\ forall ev, In ev (vt_votes v) -> exists sels, encrypted (ek_key k) ev sels;
    vo_once : NoDup (map ev_contest (vt_votes v));
    (* the identifiers of decryptions carry ten bytes of the voter's key; see C18 *)
    vo_apart : forall x, votes_in h x ->
      firstn 10 (arr_l (id_unique (s_id x))) <> firstn 10 (arr_l (sv (vt_key v)));
    (* a mix is accepted if every vote has one entry for its contest (C44), and has at most 65535 rows *)
    vo_mix : el_mix_config el <> None -> Permutation (map ev_contest (vt_votes v)) contests
               /\ forall l, NoDup l -> (forall x, In x l -> votes_in h x) -> (N.of_nat (List.length l) < 65535)%N
  }.

  Inductive honest : list STx -> Prop :=
  | ho_start : forall h x, history dbg h -> (forall y, In y h -> outside y) -> s_tx x = XElection el ->
      fresh h (s_id x) -> validate dbg (ms_store (ms_from h)) x = Ok tt -> honest (h ++ [x])
  | ho_other : forall h x, honest h -> outside x ->
      fresh h (s_id x) -> validate dbg (ms_store (ms_from h)) x = Ok tt -> honest (h ++ [x])
  | ho_vote : forall h x v, honest h -> s_tx x = XVote v -> voter h v ->
      fresh h (s_id x) -> validate dbg (ms_store (ms_from h)) x = Ok tt -> honest (h ++ [x])
  | ho_end : forall h x ve, honest h -> s_tx x = XVotingEnd ve -> ve_election ve = e -> ve_id ve = slot0 e TVotingEnd ->
      (exists k, at_id h (slot0 e TEncryptionKey) (XEncryptionKey k)) ->
      fresh h (s_id x) -> validate dbg (ms_store (ms_from h)) x = Ok tt -> honest (h ++ [x])
  | ho_node : forall h1 h2 sk r x l y, honest (h1 ++ h2) -> node sk -> In x h1 -> inside x ->
      generate_transactions dbg sk r (ms_store (ms_from h1)) x = Ok l -> In y l ->
      fresh (h1 ++ h2) (s_id y) -> honest ((h1 ++ h2) ++ [y]).

  (** the node has answered [x], at some time after it was recorded, and what it answered was recorded *)
  Definition answers (h : list STx) (sk : ed_secret) (x : STx) : Prop :=
    exists h1 h2 r l, h = h1 ++ h2 /\ In x h1 /\ generate_transactions dbg sk r (ms_store (ms_from h1)) x = Ok l
      /\ forall y, In y l -> occupied h (s_id y).
  (** key generation takes all trustees, and the authority's node with key [sk] *)
  Record keys_answered (sk : ed_secret) (h : list STx) : Prop := {
    ka_node : node sk;
    ka_authority : ed_public sk = el_authority el;
    ka_trustees : forall x p, In x h -> inside x -> In p T ->
      match s_tx x with XElection _ | XCommitment _ | XShare _ => answers h (snd p) x | _ => True end;
    ka_last : forall x, In x h -> inside x ->
      match s_tx x with XPublicKey _ => answers h sk x | _ => True end
  }.
  (** the rest takes as many trustees as the threshold says; with a mixnet, among them the one that mixes *)
  Record quorum (Q : people) (h : list STx) : Prop := {
    qu_trustees : incl Q T;
    qu_distinct : NoDup Q;
    qu_enough : (u8v (el_threshold el) <= N.of_nat (List.length Q))%N;
    qu_mixer : el_mix_config el <> None -> exists p, In p Q /\ tr_index (fst p) = x01;
    qu_answers : forall x p, In x h -> inside x -> In p Q ->
      match s_tx x with XVotingEnd _ | XMix _ | XPartial _ => answers h (snd p) x | _ => True end
  }.
  (** voting has ended *)
  Definition ended (h : list STx) : Prop := occupied h (slot0 e TVotingEnd).

  (** the entries of the recorded votes of the election for a contest, as the ledger has them *)
  Definition votes_of (h : list STx) : list VoteTx :=
    flat_map (fun x => match s_tx x with XVote v => if id_eqb (vt_election v) e then [v] else [] | _ => [] end) h.
  Definition ballots (h : list STx) (c : u32) : list EncryptedVote :=
    flat_map (fun v => filter (fun ev => u_eqb (ev_contest ev) c) (vt_votes v)) (votes_of h).
  (** the recorded decryptions of the election for a contest *)
  Definition decryptions_of (h : list STx) (c : u32) : list DecryptionTx :=
    flat_map (fun x => match s_tx x with
                       | XDecryption d => if (id_eqb (dc_election d) e && u_eqb (dc_contest d) c)%bool then [d] else []
                       | _ => [] end) h.
End Spec.
