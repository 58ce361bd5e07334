(** * C83-C85: the winner, the printed counts, and the remaining commands of the client. *)
From Verif Require Import Base BaseFacts Hex HexFacts Utf8 Cbor Value ValueFacts Ident BuildId IdentFacts Crypto Types Serde SpecSerde SerdeFacts Store SpecStore StoreFacts
  Prost Validate SpecValid ValidFacts SpecHist HistFacts Exonum SpecLedger LedgerFacts Api Encrypt Audit Cli SpecCli CliFacts Json SpecJson JsonFacts JsonTx Rest RestFacts ReserFacts
  Trustee Tasks Service SpecService SpecThreshold Lagrange SpecRun SpecNet SpecDesk SpecTally Tally TallyFacts SpecOutcome OutcomeFacts Results SpecResults
  Toy ToyT ToyE Scene Props_Threshold Props_Audit Props_Tally Props_Run Props_Outcome Props_Net Props_Cli Props_Desk Props_Json.
From Coq Require Import ZifyBool ZifyNat ZifyN Sorting.Permutation.
From Coq Require Strings.String.
Import String.StringSyntax.
Open Scope list_scope.

#[local] Strategy 1000 [stx_from_bytes stx_from_json stxs_from_json stx_json stxs_json api_decode].

(** ** C83 *)
Lemma top_most t p : In p t -> (snd p <= top t)%N.
Proof. unfold top. induction t as [|q t IH]; [intros []|]. cbn [map fold_right]. intros [->|I]; [lia|]. specialize (IH I). lia. Qed.
Lemma top_in t : t <> [] -> exists p, In p t /\ snd p = top t.
Proof.
  induction t as [|q t IH]; [congruence|]. intros _. destruct t as [|q' t].
  - exists q. split; [left; reflexivity|]. unfold top. cbn [map fold_right]. lia.
  - destruct IH as (p & I & E); [discriminate|]. unfold top in *. cbn [map fold_right] in *.
    set (m := N.max (snd q') _) in *. destruct (N.leb_spec (snd q) m).
    + exists p. split; [right; exact I|]. lia.
    + exists q. split; [left; reflexivity|]. lia.
Qed.
Lemma first_winner t : t <> [] -> exists w, nth_error (winners t) 0 = Some w /\ In (w, top t) t.
Proof.
  intros H. destruct (top_in t H) as ([c n] & I & E). cbn [snd] in E. unfold winners.
  assert (X : In (c, n) (filter (fun p => N.eqb (snd p) (top t)) t)) by (apply filter_In; split; [exact I|apply N.eqb_eq, E]).
  destruct (filter _ t) as [|[w k] l] eqn:F; [destruct X|]. exists w. split; [reflexivity|].
  assert (Y : In (w, k) (filter (fun p => N.eqb (snd p) (top t)) t)) by (rewrite F; left; reflexivity).
  apply filter_In in Y as [Y Ek]. apply N.eqb_eq in Ek. cbn [snd] in Ek. subst k. exact Y.
Qed.
Lemma chosen_fun c cast n m : chosen c cast n -> chosen c cast m -> n = m.
Proof. rewrite !chosen_count. congruence. Qed.
Lemma chosen_ex c cast : exists n, chosen c cast n.
Proof. eexists. apply chosen_count. reflexivity. Qed.
Lemma chosen_pos c cast n : chosen c cast n -> (0 < n)%N <-> exists v, In v cast /\ first_choice v c.
Proof.
  rewrite chosen_count. intros ->. split.
  - intros H. destruct (filter (chooses c) cast) as [|v l] eqn:F; [cbn in H; lia|].
    assert (I : In v (filter (chooses c) cast)) by (rewrite F; left; reflexivity). apply filter_In in I as [I B]. exists v. split; [exact I|apply chooses_iff, B].
  - intros (v & I & B). apply chooses_iff in B. assert (X : In v (filter (chooses c) cast)) by (apply filter_In; auto).
    destruct (filter (chooses c) cast); [destruct X|cbn [length]; lia].
Qed.
Lemma counts_most cast t w : counts cast t -> In (w, top t) t -> most cast w.
Proof.
  intros [_ _ Co] I. pose proof I as J. apply Co in I as [E Ch]. exists (top t). split; [exact Ch|]. split; [apply (chosen_pos _ _ _ Ch), E|].
  intros c' n' Ch'. destruct (N.eq_dec n' 0) as [->|N]; [lia|].
  change n' with (snd (c', n')). apply top_most, Co. split; [|exact Ch']. apply (chosen_pos _ _ _ Ch'). lia.
Qed.
Lemma counts_some cast t : counts cast t -> cast <> [] -> t <> [].
Proof. intros [_ T _] H ->. cbn in T. destruct cast; [congruence|]. cbn [length] in T. lia. Qed.
Lemma most_ahead cast a w : ahead cast a -> most cast w -> w = a.
Proof.
  intros (n & Ca & A) (m & Cw & _ & M). destruct (bytes_eqb w a) eqn:E; [apply bytes_eqb_eq, E|].
  assert (w <> a) by (intros X; apply bytes_eqb_eq in X; congruence). specialize (A w m H Cw). specialize (M a n Ca). lia.
Qed.

Section Winner.
  Context {C : Crypto}.
  (** whenever the totals are those of the votes [cast] (C76, C78, C80): a winner is printed, nobody has more votes, and a candidate
      who is ahead of all others is the one printed *)
  Theorem C83_winner_partial : forall order s e cast t, e2e_tally order s e = Ok t -> counts cast t -> cast <> [] ->
    exists w, winner order s e = Ok w /\ most cast w /\ forall a, ahead cast a -> w = a.
  Proof.
    intros order s e cast t E Co Ne. destruct (first_winner t (counts_some _ _ Co Ne)) as (w & F & I). exists w.
    split; [unfold winner; rewrite E; cbn [bind]; rewrite F; reflexivity|]. pose proof (counts_most _ _ _ Co I) as M.
    split; [exact M|]. intros a A. exact (most_ahead _ _ _ A M).
  Qed.
  (** with no decryption at all the command stops *)
  Lemma no_winner order s e : fair order -> get_multiple s e TDecryption = Ok [] -> winner order s e = Panic PIndex.
  Proof.
    intros F G. unfold winner, e2e_tally. rewrite G. cbn [bind map_res map e2e_count].
    rewrite (Permutation_nil (Permutation_sym (F _ _))). reflexivity.
  Qed.
  Context {TC : TCrypto} {K : Fld} {M : Mdl} (S : threshold_scheme K M).
  Context {R : Type} (eg : EGPublicKey -> R -> bytes -> Ciphertext * R).
  (** in a network of honest nodes that has settled after the end of voting, the winner of the votes cast *)
  Theorem C83_network_partial : forall dbg el T contests, laws S eg el -> set_up el T contests ->
    forall bs (s : rstring) Q k cast order, network eg dbg el T contests bs [] -> settled dbg el bs -> ended el (recorded_by dbg bs) ->
    sufficient el T Q -> (forall p, In p Q -> delivered dbg el (snd p) bs) ->
    at_id (recorded_by dbg bs) (slot0 (el_id el) TEncryptionKey) (XEncryptionKey k) ->
    Forall2 (encrypted eg (ek_key k)) (entries el (recorded_by dbg bs)) cast ->
    sv s = id_to_string (el_id el) -> selects el (shares_prefix (el_id el)) (recorded_by dbg bs) -> fair order ->
    Forall (fun v => v <> []) cast -> cast <> [] ->
    exists m w, command_e2e dbg (ledger_after dbg bs) s = Ok m /\ winner order (ms_store m) (el_id el) = Ok w
      /\ most cast w /\ forall a, ahead cast a -> w = a.
  Proof.
    intros dbg el T contests L SU bs s Q k cast order Nw Se Ed Su De At F Hs Sl Fo Ne Nc.
    destruct (C78_command S eg dbg el T contests L SU bs s Q k cast order Nw Se Ed Su De At F Hs Sl Fo Ne) as (m & t & A & E & Co).
    destruct (C83_winner_partial order (ms_store m) (el_id el) cast t E Co Nc) as (w & W). exists m, w. split; [exact A|exact W].
  Qed.
  (** an election typed in with the commands of the client: a text typed by nobody less often than any other *)
  Theorem C83_typed_partial : forall shellexpand dbg id sk el, started_with id sk el -> laws S eg el -> fits_cipher eg ->
    forall (r : nat -> Rnd) bs cast n (s : rstring) order, desk shellexpand eg dbg id sk el bs [] cast -> bs <> [] ->
    ended el (recorded_by dbg bs) -> delivered dbg el sk bs ->
    let new := driven dbg r [sk] (fold_left (commit dbg) bs genesis) n in 16 <= n -> all_written new ->
    sv s = id_to_string (el_id el) -> fair order -> cast <> [] ->
    exists m w, command_e2e dbg (ledger_after dbg (bs ++ new)) s = Ok m /\ winner order (ms_store m) (el_id el) = Ok w
      /\ most (map ballot_for cast) w /\ forall a, ahead (map ballot_for cast) a -> w = a.
  Proof.
    intros shellexpand dbg id sk el St L Fc r bs cast n s order D Nb Ed De new Le W Hs Fo Nc.
    destruct (C80_counted S shellexpand eg dbg id sk el St L Fc r bs cast n s order D Nb Ed De Le W Hs Fo) as (m & t & A & E & Co).
    destruct (C83_winner_partial order (ms_store m) (el_id el) _ t E Co ltac:(destruct cast; [congruence|discriminate])) as (w & Y).
    exists m, w. split; [exact A|exact Y].
  Qed.
End Winner.

(** ** C84: the printed text determines what was counted, if no text has a line break *)
Lemma cut (x : byte) a b r r' : ~ In x a -> ~ In x b -> a ++ x :: r = b ++ x :: r' -> a = b /\ r = r'.
Proof.
  revert b. induction a as [|y a IH]; intros [|z b] A B E; cbn [app] in E.
  - injection E as ->. auto.
  - injection E as <- _. destruct B. left. reflexivity.
  - injection E as -> _. destruct A. left. reflexivity.
  - injection E as <- E. destruct (IH b) as [-> ->]; [intros I; apply A; right; exact I|intros I; apply B; right; exact I|exact E|auto].
Qed.
Lemma cut_last (x : byte) a b r r' : ~ In x r -> ~ In x r' -> a ++ x :: r = b ++ x :: r' -> a = b /\ r = r'.
Proof.
  intros A B E. apply (f_equal (@rev byte)) in E. rewrite !rev_app_distr in E. cbn [rev] in E. rewrite <- !app_assoc in E. cbn [app] in E.
  apply cut in E as [E1 E2]; [|rewrite <- in_rev; assumption|rewrite <- in_rev; assumption].
  rewrite <- (rev_involutive a), <- (rev_involutive r), E1, E2, !rev_involutive. auto.
Qed.
Lemma lines_inj (l l' : list bytes) : Forall one_line l -> Forall one_line l' ->
  flat_map (fun a => a ++ nl) l = flat_map (fun a => a ++ nl) l' -> l = l'.
Proof.
  intros F. revert l'. induction F as [|a l A _ IH]; intros l' F' E; destruct F' as [|b l' B F']; cbn [flat_map] in E; [reflexivity| | |].
  - unfold nl in E. apply (f_equal (@length byte)) in E. rewrite !app_length in E. cbn [length] in E. lia.
  - unfold nl in E. apply (f_equal (@length byte)) in E. rewrite !app_length in E. cbn [length] in E. lia.
  - unfold nl in E. rewrite <- !app_assoc in E. cbn [app] in E. apply cut in E as [-> E2]; [|exact A|exact B]. f_equal. apply IH; assumption.
Qed.
Lemma dec_inj n m : (n < 2 ^ 64)%N -> (m < 2 ^ 64)%N -> dec_fuel 20 n = dec_fuel 20 m -> n = m.
Proof.
  intros A B E. rewrite <- (undec_dec 20 n), <- (undec_dec 20 m), E; [reflexivity| |]; (change (N.of_nat 20) with 20%N; apply big20; lia).
Qed.
Lemma dec_free x n : digit x = false -> ~ In x (dec_fuel 20 n).
Proof. intros D I. pose proof (dec_digits 20 n) as H. rewrite forallb_forall in H. rewrite (H x I) in D. discriminate D. Qed.
Lemma in_lit x l : existsb (Byte.eqb x) l = false -> ~ In x l.
Proof. intros H I. assert (X : existsb (Byte.eqb x) l = true) by (apply existsb_exists; exists x; split; [exact I|apply beq; reflexivity]). congruence. Qed.
Lemma one_app a b : one_line a -> one_line b -> one_line (a ++ b).
Proof. intros A B I. apply in_app_or in I as [I|I]; auto. Qed.
Lemma one_dec n : one_line (dec_fuel 20 n).
Proof. apply dec_free. reflexivity. Qed.

Definition tally_body (p : bytes * N) : bytes := sv (lit "  ") ++ fst p ++ sv (lit " got ") ++ dec_fuel 20 (snd p) ++ sv (lit " votes").
Lemma tally_lines t : flat_map tally_line t = flat_map (fun a => a ++ nl) (map tally_body t).
Proof. induction t as [|p t IH]; [reflexivity|]. cbn [map flat_map]. rewrite IH. unfold tally_line, tally_body. rewrite <- !app_assoc. reflexivity. Qed.
Lemma tally_body_inj p q : (snd p < 2 ^ 64)%N -> (snd q < 2 ^ 64)%N -> tally_body p = tally_body q -> p = q.
Proof.
  intros A B E. unfold tally_body in E. apply app_inv_head in E. rewrite !app_assoc in E. apply app_inv_tail in E.
  replace (sv (lit " got ")) with (sv (lit " got") ++ [x20]) in E by reflexivity. rewrite !app_assoc, <- !(app_assoc _ [x20]) in E. cbn [app] in E.
  apply cut_last in E as [E1 E2]; [|apply dec_free; reflexivity|apply dec_free; reflexivity]. apply app_inv_tail in E1. apply dec_inj in E2; [|exact A|exact B].
  destruct p, q. cbn [fst snd] in *. congruence.
Qed.
Lemma map_inj_in {A B} (f : A -> B) (l l' : list A) : (forall a b, In a l -> In b l' -> f a = f b -> a = b) -> map f l = map f l' -> l = l'.
Proof.
  revert l'. induction l as [|a l IH]; intros [|b l'] H E; try discriminate E; [reflexivity|]. cbn [map] in E. injection E as E1 E2.
  f_equal; [apply H; [left; reflexivity|left; reflexivity|exact E1]|apply IH; [intros; apply H; [right; assumption|right; assumption|assumption]|exact E2]].
Qed.
Lemma tally_text_inj t t' : Forall (fun p => one_line (fst p) /\ (snd p < 2 ^ 64)%N) t -> Forall (fun p => one_line (fst p) /\ (snd p < 2 ^ 64)%N) t' ->
  tally_text t = tally_text t' -> t = t'.
Proof.
  intros F F' E. unfold tally_text in E. apply app_inv_head in E. apply app_inv_head in E. rewrite !tally_lines in E.
  assert (O : forall t, Forall (fun p : bytes * N => one_line (fst p) /\ (snd p < 2 ^ 64)%N) t -> Forall one_line (map tally_body t)).
  { clear. intros t. rewrite Forall_map. apply Forall_impl. intros p [A _]. unfold tally_body. repeat (apply one_app; [first [exact A|apply one_dec|apply in_lit; reflexivity]|]).
    apply in_lit. reflexivity. }
  apply lines_inj in E; [|apply O, F|apply O, F']. revert E. apply map_inj_in. rewrite Forall_forall in *.
  intros p q Ip Iq. apply tally_body_inj; [apply F, Ip|apply F', Iq].
Qed.

Lemma filter_le {A} (f : A -> bool) l : length (filter f l) <= length l.
Proof. induction l as [|a l IH]; cbn [filter length]; [lia|]. destruct (f a); cbn [length]; lia. Qed.
(** first choices are on one line, and there are fewer than 2^64 votes *)
Definition printable (cast : list (list Selection)) : Prop :=
  (forall v c, In v cast -> first_choice v c -> one_line c) /\ (N.of_nat (length cast) < 2 ^ 64)%N.
Lemma counts_printable cast t : counts cast t -> printable cast -> Forall (fun p => one_line (fst p) /\ (snd p < 2 ^ 64)%N) t.
Proof.
  intros [_ _ Co] [P Q]. apply Forall_forall. intros [c n] I. apply Co in I as [(v & Iv & F) Ch]. split; [exact (P v c Iv F)|].
  apply chosen_count in Ch. cbn [snd]. pose proof (filter_le (chooses c) cast). lia.
Qed.

Section Printed.
  Context {C : Crypto}.
  (** two audits that print the same tally counted the same number of votes for every text *)
  Theorem C84_tally_partial : forall order order' s s' e e' cast cast' t t' out,
    e2e_tally order s e = Ok t -> counts cast t -> printable cast ->
    e2e_tally order' s' e' = Ok t' -> counts cast' t' -> printable cast' ->
    print_tally order s e = Ok out -> print_tally order' s' e' = Ok out ->
    forall c n, chosen c cast n <-> chosen c cast' n.
  Proof.
    intros order order' s s' e e' cast cast' t t' out E Co P E' Co' P' H H'. unfold print_tally in *. rewrite E in H. rewrite E' in H'. cbn [bind] in *.
    rewrite <- H in H'. assert (X0 : tally_text t' = tally_text t) by congruence. clear H H'. rename X0 into H'. apply tally_text_inj in H'; [|apply (counts_printable _ _ Co' P')|apply (counts_printable _ _ Co P)]. subst t'.
    assert (X : forall a b, counts a t -> counts b t -> forall c n, chosen c a n -> chosen c b n).
    { intros a b [_ _ A] [_ _ B] c n Ch. destruct (chosen_ex c b) as (m & Cm). destruct (N.eq_dec n 0) as [->|N].
      - destruct (N.eq_dec m 0) as [->|N]; [exact Cm|]. exfalso. assert (I : In (c, m) t) by (apply B; split; [apply (chosen_pos _ _ _ Cm); lia|exact Cm]).
        apply A in I as [_ Ch']. apply N, (chosen_fun _ _ _ _ Ch' Ch).
      - assert (I : In (c, n) t) by (apply A; split; [apply (chosen_pos _ _ _ Ch); lia|exact Ch]). apply B in I as [_ I]. exact I. }
    intros c n. split; apply X; assumption.
  Qed.

  (** the printed votes show the score and the text of every selection, in order *)
  Lemma votes_read s L e ds : holds s L -> range_is L e TDecryption XDecryption ds -> print_votes s e = Ok (votes_text (map dc_vote ds)).
  Proof.
    intros H Rg. assert (Pj : forall y a, as_decryption y = Some a <-> y = XDecryption a)
      by (intros y a; split; [destruct y; cbn; congruence|intros ->; reflexivity]).
    destruct (proj2 (@range_into C s L H Empty_set _ as_decryption XDecryption e TDecryption ds Pj) Rg) as (txs & G & B).
    unfold print_votes. destruct (get_multiple s e TDecryption) as [r|[]|]; try discriminate G. injection G as ->. cbn [bind]. rewrite B. reflexivity.
  Qed.
  Definition vote_body (s : Selection) : bytes := sv (lit "  ") ++ dec_fuel 20 (score s) ++ sv (lit ":") ++ text s.
  Lemma vote_lines l : flat_map (flat_map vote_line) l = flat_map (fun a => a ++ nl) (flat_map (fun s => [vote_body s; []]) (concat l)).
  Proof.
    induction l as [|v l IH]; [reflexivity|]. cbn [flat_map concat]. rewrite IH, flat_map_app, flat_map_app. f_equal.
    induction v as [|s v IHv]; [reflexivity|]. cbn [flat_map app]. rewrite IHv. unfold vote_line, vote_body. rewrite <- !app_assoc. reflexivity.
  Qed.
  Lemma vote_body_inj a b : vote_body a = vote_body b -> (score a, text a) = (score b, text b).
  Proof.
    intros E. unfold vote_body in E. apply app_inv_head in E. change (sv (lit ":")) with [x3a] in E. cbn [app] in E.
    assert (U : forall s, (score s < 2 ^ 64)%N) by (intros s; unfold score; pose proof (uv_lt (sel_score s)) as X; change (pow256 4) with (2 ^ 32)%N in X; assert (2 ^ 32 < 2 ^ 64)%N by reflexivity; lia).
    apply cut in E as [E1 E2]; [|apply dec_free; reflexivity|apply dec_free; reflexivity]. apply dec_inj in E1; [congruence|apply U|apply U].
  Qed.
  Theorem C84_votes_partial : forall s s' L L' e e' ds ds' out, holds s L -> holds s' L' ->
    range_is L e TDecryption XDecryption ds -> range_is L' e' TDecryption XDecryption ds' ->
    (forall d x, In d ds \/ In d ds' -> In x (dc_vote d) -> one_line (text x)) ->
    print_votes s e = Ok out -> print_votes s' e' = Ok out ->
    map (fun x => (score x, text x)) (flat_map dc_vote ds) = map (fun x => (score x, text x)) (flat_map dc_vote ds').
  Proof.
    intros s s' L L' e e' ds ds' out Hs Hs' Rg Rg' O P P'. rewrite (votes_read s L e ds Hs Rg) in P. rewrite (votes_read s' L' e' ds' Hs' Rg') in P'.
    rewrite <- P' in P. assert (X0 : votes_text (map dc_vote ds) = votes_text (map dc_vote ds')) by congruence. clear P P'. rename X0 into P. unfold votes_text in P. apply app_inv_head in P. apply app_inv_head in P. rewrite !vote_lines in P.
    rewrite <- !flat_map_concat_map in P.
    assert (F : forall l, (forall d x, In d l -> In x (dc_vote d) -> one_line (text x)) -> Forall one_line (flat_map (fun s => [vote_body s; []]) (flat_map dc_vote l))).
    { intros l H. apply Forall_forall. intros a I. apply in_flat_map in I as (x & Ix & Ia). apply in_flat_map in Ix as (d & Id & Ix). destruct Ia as [<-|[<-|[]]]; [|intros []].
      unfold vote_body. apply one_app; [apply in_lit; reflexivity|]. apply one_app; [apply one_dec|]. apply one_app; [apply in_lit; reflexivity|exact (H d x Id Ix)]. }
    apply lines_inj in P; [|apply F; intros d x I; apply O; left; exact I|apply F; intros d x I; apply O; right; exact I].
    revert P. generalize (flat_map dc_vote ds) (flat_map dc_vote ds'). induction l as [|a l IH]; intros [|b l'] E; try discriminate E; [reflexivity|].
    cbn [flat_map app map] in E. pose proof (f_equal (hd []) E) as E1. pose proof (f_equal (fun l => tl (tl l)) E) as E2. cbn [hd tl] in E1, E2. clear E. cbn [map].
    f_equal; [apply vote_body_inj, E1|apply IH, E2].
  Qed.
End Printed.

(** ** C85: the remaining commands *)
Section Commands.
  Context {C : Crypto}.
  (** [get] prints the transaction that the node holds, and the text can be posted to any node with the effect of the original *)
  Theorem C85_relay : forall L (s : rstring) i x pretty, id_from_str (sv s) = Ok i -> fetch L i = Ok x -> text_forms (s_tx x) ->
    exists f, cli_get L s pretty = Ok f
      /\ (exists y, read_file f = Ok [y] /\ same x y /\ verify_signature y = verify_signature x)
      /\ forall dbg L', post_file dbg L' f = Ok (post dbg L' x).
  Proof.
    intros L s i x pretty Ei F T. unfold cli_get, get_or_stop. rewrite Ei. unfold fetch in F. unfold rest_get, body_tx.
    revert F. match goal with |- context [get_tx L ?a] => generalize a end. intros k F. rewrite F. cbn [bind map_err].
    pose proof (got_depth L k x F T) as D. pose proof (json_roundtrip x T D) as J1. pose proof (pretty_roundtrip x T D) as J2. rewrite J1. cbn [map_err bind].
    assert (R : read_file ((if pretty then stx_pretty (norm_stx x) else stx_json (norm_stx x)) ++ nl) = Ok [norm_stx x]).
    { destruct pretty.
      - unfold stx_pretty in *. rewrite j_norm. apply (read_one [] nl); [reflexivity|reflexivity|exact pretty_nl|reflexivity|exact J2].
      - unfold stx_json in *. rewrite j_norm. apply (read_one [] nl); [reflexivity|reflexivity|exact compact_nl|reflexivity|exact J1]. }
    eexists. split; [reflexivity|]. split; [exists (norm_stx x); split; [exact R|split; [apply norm_same|apply verify_norm]]|].
    intros dbg L'. unfold post_file. rewrite R. cbn [bind cli_post fold_left]. unfold post. rewrite into_norm. reflexivity.
  Qed.
  (** an argument that is not an identifier, or one the node does not have, stops [get] and [tally] *)
  Theorem C85_stops : forall L (s : rstring) pretty,
    (forall i x, id_from_str (sv s) = Ok i -> fetch L i <> Ok x) ->
    exists p, cli_get L s pretty = Panic p /\ cli_tally L s = Panic p.
  Proof.
    intros L s pretty H. unfold cli_get, cli_tally, get_or_stop. destruct (id_from_str (sv s)) as [i|u|p] eqn:Ei; [|exists PUnwrap; auto|exists p; auto].
    specialize (H i). unfold fetch in H. unfold rest_get, body_tx. revert H. match goal with |- context [get_tx L ?a] => generalize a end. intros k H.
    destruct (get_tx L k) as [x|u|p]; [destruct (H x eq_refl eq_refl)|exists PUnwrap; auto|exists p; auto].
  Qed.
  (** [tally] prints nothing, whatever the votes; given anything but an election it stops *)
  Theorem C85_tally_silent : forall L (s : rstring) i x, id_from_str (sv s) = Ok i -> fetch L i = Ok x -> text_forms (s_tx x) ->
    cli_tally L s = match s_tx x with XElection _ => Ok [] | _ => Panic PWrongType end.
  Proof.
    intros L s i x Ei F T. unfold cli_tally, get_or_stop. rewrite Ei. unfold fetch in F. unfold rest_get, body_tx.
    revert F. match goal with |- context [get_tx L ?a] => generalize a end. intros k F. rewrite F. cbn [bind map_err].
    pose proof (json_roundtrip x T (got_depth L k x F T)) as J1. rewrite J1. cbn [map_err bind]. unfold into_typed. cbn [norm_stx s_tx].
    destruct (s_tx x); reflexivity.
  Qed.
  (** [sign] never signs: it looks for an argument that it does not declare *)
  Theorem C85_sign_stops : forall A input secret (rest : bytes -> res Empty_set A), cli_sign input secret rest = Panic PUnwrap.
  Proof. reflexivity. Qed.
End Commands.

(** ** concrete cases *)
Section Cases.
  #[local] Existing Instance Toy.
  Definition both {E A} (p : A -> A -> bool) (r r' : res E A) : bool := match r, r' with Ok a, Ok a' => p a a' | _, _ => false end.
  Lemma both_ok {E A} p (r r' : res E A) : both p r r' = true -> exists a a', r = Ok a /\ r' = Ok a' /\ p a a' = true.
  Proof. destruct r as [a| |], r' as [a'| |]; try discriminate. intros H. exists a, a'. auto. Qed.
  Lemma tie_checks : both (fun w w' => negb (bytes_eqb w w')) (winner straight (ms_store (ms_from scene_plain)) EID) (winner backward (ms_store (ms_from scene_plain)) EID) = true.
  Proof. vm_compute. reflexivity. Qed.
  (** two voters, two texts: the order of a hash map decides who is printed *)
  Theorem C83_tie_refuted : exists l order order' w w', history true l /\ fair order /\ fair order'
    /\ winner order (ms_store (ms_from l)) EID = Ok w /\ winner order' (ms_store (ms_from l)) EID = Ok w' /\ w <> w'.
  Proof.
    pose proof tie_checks as X. apply both_ok in X as (w & w' & A & B & X). exists scene_plain, straight, backward, w, w'.
    split; [apply run_history; vm_compute; reflexivity|]. split; [apply straight_fair|]. split; [apply backward_fair|]. split; [exact A|]. split; [exact B|].
    intros ->. rewrite (proj2 (bytes_eqb_eq w' w') eq_refl) in X. discriminate X.
  Qed.
  (** an election in which nobody voted: the audit passes, then the command stops *)
  Lemma nobody_range : get_multiple (ms_store (ms_from (setup None ++ [votingend]))) EID TDecryption = Ok [].
  Proof.
    assert (X : match get_multiple (ms_store (ms_from (setup None ++ [votingend]))) EID TDecryption with Ok [] => true | _ => false end = true) by (vm_compute; reflexivity).
    revert X. generalize (get_multiple (ms_store (ms_from (setup None ++ [votingend]))) EID TDecryption). intros [[|]| |] X; (reflexivity || discriminate X).
  Qed.
  Theorem C83_nobody_refuted : exists l, history true l /\ isok (audit true (stored l)) = true
    /\ forall order, fair order -> winner order (ms_store (ms_from l)) EID = Panic PIndex.
  Proof.
    exists (setup None ++ [votingend]). split; [apply run_history; vm_compute; reflexivity|]. split; [vm_compute; reflexivity|].
    intros order F. exact (no_winner order _ _ F nobody_range).
  Qed.
  (** C84: one voter whose text has a line break in it prints as the two voters of [scene_plain] *)
  Definition forger : list STx := setup None ++ vote_sels [sel (@mk_sub bytes utf8_valid (sv (lit "yes got 1 votes") ++ nl ++ sv (lit "  no")) eq_refl)].
  Lemma forger_checks : both bytes_eqb (print_tally straight (ms_store (ms_from forger)) EID) (print_tally straight (ms_store (ms_from scene_plain)) EID) = true.
  Proof. vm_compute. reflexivity. Qed.
  Theorem C84_forged_refuted : exists l l' out, history true l /\ history true l'
    /\ print_tally straight (ms_store (ms_from l)) EID = Ok out /\ print_tally straight (ms_store (ms_from l')) EID = Ok out
    /\ length (published EID (n32 0) l) = 1 /\ length (published EID (n32 0) l') = 2.
  Proof.
    pose proof forger_checks as X. apply both_ok in X as (o & o' & A & B & X). apply bytes_eqb_eq in X. subst o'. exists forger, scene_plain, o.
    split; [apply run_history; vm_compute; reflexivity|]. split; [apply run_history; vm_compute; reflexivity|]. split; [exact A|]. split; [exact B|].
    split; vm_compute; reflexivity.
  Qed.
  Example C84_case : print_tally straight (ms_store (ms_from scene_plain)) EID = Ok (sv (lit "Tally:") ++ nl ++ sv (lit "  yes got 1 votes") ++ nl ++ sv (lit "  no got 1 votes") ++ nl)
    /\ print_votes (ms_store (ms_from scene_plain)) EID = Ok (sv (lit "Votes:") ++ nl ++ sv (lit "  0:yes") ++ nl ++ nl ++ sv (lit "  0:no") ++ nl ++ nl)
    /\ printable [[sel (lit "yes")]; [sel (lit "no")]].
  Proof.
    split; [vm_compute; reflexivity|]. split; [vm_compute; reflexivity|]. split; [|reflexivity].
    intros v c [<-|[<-|[]]] (s & v' & E & <-); injection E as <- <-; apply in_lit; reflexivity.
  Qed.
  (** C85 *)
  Definition relayed : bool :=
    match cli_get (post true [] (el_of EID no_props)) ids true with
    | Ok f => match post_file true [] f with Ok L => match cli_tally L ids, cli_get L ids false with Ok [], Ok (_ :: _) => true | _, _ => false end | _ => false end
    | _ => false
    end.
  Example C85_case : relayed = true /\ cli_get (post true [] (el_of EID no_props)) (lit "11") true = Panic PUnwrap
    /\ text_forms (s_tx (el_of EID no_props)) /\ id_from_str (sv ids) = Ok EID /\ s_id (el_of EID no_props) = EID.
  Proof. split; [vm_compute; reflexivity|]. split; [vm_compute; reflexivity|]. split; [exact Logic.I|]. split; vm_compute; reflexivity. Qed.
End Cases.
Section TypedCase.
  #[local] Existing Instance ToyE.
  #[local] Existing Instance ToyET.
  #[local] Existing Instance Fq.
  #[local] Existing Instance Gq.
  (** the session of C80: "yes" and "no" are typed once each, and one of the two is printed *)
  Example C83_typed_case : exists bs (s : rstring) m w, desk plain_arg e_encrypt true idA skD elD bs [] castD
    /\ command_e2e true (ledger_after true (bs ++ driveD bs)) s = Ok m /\ winner straight (ms_store m) (el_id elD) = Ok w
    /\ (w = sv (lit "yes") \/ w = sv (lit "no")).
  Proof.
    destruct (sessionD _ eq_refl caseD_ok) as (bs & k & D & Nb & _ & Ed & De & W).
    exists bs, (mk_sub (id_to_string (el_id elD)) (norm_true (hex_utf8 (id_to_bytes (el_id elD))))).
    destruct (C83_typed_partial toy_scheme e_encrypt plain_arg true idA skD elD startedD (C70_laws elD) fitsD rnds bs castD 16
      (mk_sub (id_to_string (el_id elD)) (norm_true (hex_utf8 (id_to_bytes (el_id elD))))) straight D Nb Ed De (le_n 16) W eq_refl straight_fair ltac:(discriminate))
      as (m & w & A & E & (n & Ch & Po & _) & _).
    exists m, w. split; [exact D|]. split; [exact A|]. split; [exact E|]. apply (chosen_pos _ _ _ Ch) in Po as (v & I & (s & v' & Ev & <-)).
    destruct I as [<-|[<-|[]]]; injection Ev as <- <-; auto.
  Qed.
End TypedCase.

Print Assumptions C83_winner_partial.
Print Assumptions C83_network_partial.
Print Assumptions C83_typed_partial.
Print Assumptions C83_tie_refuted.
Print Assumptions C83_nobody_refuted.
Print Assumptions C84_tally_partial.
Print Assumptions C84_votes_partial.
Print Assumptions C84_forged_refuted.
Print Assumptions C85_relay.
Print Assumptions C85_stops.
Print Assumptions C85_tally_silent.
Print Assumptions C85_sign_stops.
