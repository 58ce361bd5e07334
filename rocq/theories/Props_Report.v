(** * C99: the report of an audit. *)
From Verif Require Import Base BaseFacts Hex HexFacts Utf8 Cbor Value ValueFacts Ident BuildId IdentFacts Crypto Types Serde SpecSerde SerdeFacts Store SpecStore StoreFacts
  Prost Validate SpecValid ValidFacts SpecHist HistFacts Trustee Tasks TasksFacts SpecTally Tally TallyFacts SpecOutcome OutcomeFacts Results SpecResults
  Toy Scene Props_Tally Props_Outcome Props_Results Report SpecReport.
From Coq Require Import ZifyBool ZifyNat ZifyN Sorting.Permutation.
From Coq Require Strings.String.
Import String.StringSyntax.
Open Scope list_scope.

Lemma dec_digits_of n : (n < 2 ^ 64)%N -> digits_of (dec_fuel 20 n) n.
Proof.
  intros H. split; [|split].
  - destruct (dec_head 19 n) as (b & r & E & _); [apply big20; lia|]. change 20 with (S 19). rewrite E. discriminate.
  - apply Forall_forall. intros b I. pose proof (dec_digits 20 n) as D. rewrite forallb_forall in D. specialize (D b I). unfold digit, in_range in D. apply andb_prop in D as [D1 D2]. apply N.leb_le in D1, D2. auto.
  - exact (undec_dec 20 n ltac:(apply big20; lia)).
Qed.

(** ** a text is read in one way *)
Lemma in_lines_flat ls : Forall one_line ls -> in_lines (flat_map (fun a => a ++ nl) ls) ls.
Proof. induction 1 as [|l ls O _ IH]; cbn [flat_map]; [constructor|]. unfold nl at 1. rewrite <- app_assoc. cbn [app]. constructor; assumption. Qed.
Lemma flat_in_lines t ls : in_lines t ls -> t = flat_map (fun a => a ++ nl) ls /\ Forall one_line ls.
Proof. induction 1 as [|l t ls O _ [-> F]]; [split; [reflexivity|constructor]|]. split; [|constructor; assumption]. cbn [flat_map]. unfold nl at 2. rewrite <- app_assoc. reflexivity. Qed.
Lemma in_lines_fun t ls ls' : in_lines t ls -> in_lines t ls' -> ls = ls'.
Proof. intros A B. apply flat_in_lines in A as [A F], B as [B F']. subst t. apply lines_inj; assumption. Qed.

(** a heading starts with no space *)
Definition indented (l : bytes) : Prop := match l with [] => True | b :: _ => b = x20 end.
Definition headed (ls : list bytes) : Prop := match ls with [] => True | l :: _ => ~ indented l end.
Lemma sections a a' r r' : Forall indented a -> Forall indented a' -> headed r -> headed r' -> a ++ r = a' ++ r' -> a = a' /\ r = r'.
Proof.
  intros F. revert a'. induction F as [|l a I F IH]; intros a' F' H H' E; destruct F' as [|l' a' I' F']; cbn [app] in E.
  - auto.
  - subst r. cbn in H. contradiction.
  - subst r'. cbn in H'. contradiction.
  - injection E as <- E. destruct (IH a' F' H H' E) as [-> ->]. auto.
Qed.
Lemma digits_free d n b : digits_of d n -> (u8v b < 48 \/ 57 < u8v b)%N -> ~ In b d.
Proof. intros (_ & F & _) H I. rewrite Forall_forall in F. specialize (F b I). lia. Qed.
Lemma digits_fun d n m : digits_of d n -> digits_of d m -> n = m.
Proof. intros (_ & _ & A) (_ & _ & B). congruence. Qed.
Lemma selection_inj ls x y : selection_lines ls x -> selection_lines ls y -> x = y.
Proof.
  intros (d & D & E) (d' & D' & E'). rewrite E in E'. injection E' as E'. destruct x as [n t], y as [m u]. cbn [fst snd] in *.
  change (bs ":") with [x3a] in E'. cbn [app] in E'. apply cut in E' as [<- ->]; [|apply (digits_free _ _ _ D); right; reflexivity|apply (digits_free _ _ _ D'); right; reflexivity].
  rewrite (digits_fun _ _ _ D D'). reflexivity.
Qed.
Lemma count_inj l p q : count_line l p -> count_line l q -> p = q.
Proof.
  intros (d & D & E) (d' & D' & E'). rewrite E in E'. apply app_inv_head in E'. rewrite !app_assoc in E'. apply app_inv_tail in E'.
  change (bs " got ") with (bs " got" ++ [x20]) in E'. rewrite !app_assoc, <- !(app_assoc _ [x20]) in E'. cbn [app] in E'.
  apply cut_last in E' as [E1 <-]; [|apply (digits_free _ _ _ D); left; reflexivity|apply (digits_free _ _ _ D'); left; reflexivity].
  apply app_inv_tail in E1. pose proof (digits_fun _ _ _ D D') as N. destruct p, q. cbn [fst snd] in *. congruence.
Qed.
Lemma rows_inj rows rows' xs ys : Forall2 selection_lines rows xs -> Forall2 selection_lines rows' ys -> concat rows = concat rows' -> xs = ys.
Proof.
  intros F. revert rows' ys. induction F as [|r x rows xs S F IH]; intros rows' ys F' E; destruct F' as [|r' y rows' ys S' F']; cbn [concat] in E.
  - reflexivity.
  - destruct S' as (d & _ & ->). discriminate E.
  - destruct S as (d & _ & ->). discriminate E.
  - assert (L : length r = length r') by (destruct S as (? & _ & ->), S' as (? & _ & ->); reflexivity).
    assert (X : r = r' /\ concat rows = concat rows').
    { clear -E L. revert r' L E. induction r as [|a r IH]; intros [|b r'] L E; try discriminate L; [auto|]. cbn [app] in E. injection E as <- E. injection L as L. destruct (IH r' L E) as [-> ->]. auto. }
    destruct X as [-> X]. rewrite (selection_inj _ _ _ S S'), (IH _ _ F' X). reflexivity.
Qed.
Lemma counts_inj rows t u : Forall2 count_line rows t -> Forall2 count_line rows u -> t = u.
Proof.
  intros F. revert u. induction F as [|l p rows t S F IH]; intros u F'; inversion F' as [|l' q rows' u' S' F'']; subst; [reflexivity|].
  rewrite (count_inj _ _ _ S S'), (IH _ F''). reflexivity.
Qed.
Lemma rows_indented rows xs : Forall2 selection_lines rows xs -> Forall indented (concat rows).
Proof. induction 1 as [|r x rows xs (d & _ & ->) _ IH]; cbn [concat]; [constructor|]. cbn [app]. constructor; [reflexivity|]. constructor; [exact Logic.I|exact IH]. Qed.
Lemma counts_indented rows t : Forall2 count_line rows t -> Forall indented rows.
Proof. induction 1 as [|l p rows t (d & _ & ->) _ IH]; constructor; [reflexivity|exact IH]. Qed.

Lemma winner_headed w o : winner_lines w o -> headed w.
Proof. destruct o; intros ->; cbn; [discriminate|exact Logic.I]. Qed.
Lemma counts_headed c w o o' : counts_lines c o -> winner_lines w o' -> headed (c ++ w).
Proof. destruct o; [intros (rows & _ & ->) _; cbn; discriminate|]. intros -> W. exact (winner_headed _ _ W). Qed.
Theorem C99_one_reading : forall text r r', reads text r -> reads text r' -> r = r'.
Proof.
  intros text [rv rc rw] [rv' rc' rw'] (v & c & w & A & V & N & W) (v' & c' & w' & A' & V' & N' & W'). cbn [rd_votes rd_counts rd_winner] in *.
  pose proof (in_lines_fun _ _ _ A A') as E. injection E as E. clear A A'.
  assert (X : rv = rv' /\ c ++ w = c' ++ w').
  { pose proof (counts_headed _ _ _ _ N W) as H. pose proof (counts_headed _ _ _ _ N' W') as H'.
    assert (K : forall c w o o', counts_lines c o -> winner_lines w o' -> forall l, c ++ w <> bs "Votes:" :: l).
    { clear. intros c w [t|] o' N W l E; cbn in N; [destruct N as (rows & _ & ->); discriminate E|]. subst c. destruct o'; cbn in W; subst w; discriminate E. }
    destruct rv as [xs|], rv' as [ys|]; cbn in V, V'.
    - destruct V as (rows & F & ->), V' as (rows' & F' & ->). injection E as E. apply sections in E as [E1 E2]; [|apply (rows_indented _ _ F)|apply (rows_indented _ _ F')|exact H|exact H'].
      rewrite (rows_inj _ _ _ _ F F' E1). auto.
    - destruct V as (rows & F & ->). subst v'. cbn [app] in E. symmetry in E. destruct (K _ _ _ _ N' W' _ E).
    - destruct V' as (rows & F & ->). subst v. cbn [app] in E. destruct (K _ _ _ _ N W _ E).
    - subst v v'. auto. }
  destruct X as [-> X]. clear E V V'.
  assert (Y : rc = rc' /\ w = w').
  { assert (K : forall w o l, winner_lines w o -> w <> bs "Tally:" :: l) by (clear; intros w [u|] l W E; cbn in W; subst w; discriminate E).
    destruct rc as [t|], rc' as [u|]; cbn in N, N'.
    - destruct N as (rows & F & ->), N' as (rows' & F' & ->). injection X as X.
      apply sections in X as [-> E2]; [|apply (counts_indented _ _ F)|apply (counts_indented _ _ F')|exact (winner_headed _ _ W)|exact (winner_headed _ _ W')].
      rewrite (counts_inj _ _ _ F F'). auto.
    - destruct N as (rows & F & ->). subst c'. cbn [app] in X. symmetry in X. destruct (K _ _ _ W' X).
    - destruct N' as (rows & F & ->). subst c. cbn [app] in X. destruct (K _ _ _ W X).
    - subst c c'. auto. }
  destruct Y as [-> ->]. f_equal. destruct rw as [a|], rw' as [b|]; cbn in W, W'; subst; try discriminate; [|reflexivity]. injection W' as W'. congruence.
Qed.

(** ** what the command prints *)
Section Report.
  Context {C : Crypto}.
  Lemma next_say a b : next (say a) b = (a ++ fst b, snd b).
  Proof. reflexivity. Qed.
  Lemma loop_ok l ds : map s_tx l = map XDecryption ds -> votes_loop l = say (flat_map (flat_map vote_line) (map dc_vote ds)).
  Proof.
    revert ds. induction l as [|x l IH]; intros [|d ds] E; try discriminate E; [reflexivity|]. cbn [map] in E. injection E as X E.
    cbn [votes_loop]. unfold into_typed. rewrite X. cbn [as_decryption or_panic after]. rewrite (IH ds E), next_say. reflexivity.
  Qed.
  Lemma votes_part_ok s L e ds : holds s L -> range_is L e TDecryption XDecryption ds -> votes_part s e = say (votes_text (map dc_vote ds)).
  Proof. intros H Rg. unfold votes_part. rewrite (holds_multiple _ _ _ _ H). cbn [after]. rewrite (loop_ok _ _ Rg), next_say. unfold votes_text. cbn [fst snd say]. rewrite <- app_assoc. reflexivity. Qed.
  Lemma e2e_reads order s L e ds : holds s L -> range_is L e TDecryption XDecryption ds ->
    e2e_tally order s e = (let! t := e2e_count (map dc_vote ds) [] in Ok (order _ t)).
  Proof.
    intros H Rg. assert (Pj : forall y a, as_decryption y = Some a <-> y = XDecryption a)
      by (intros y a; split; [destruct y; cbn; congruence|intros ->; reflexivity]).
    destruct (proj2 (@range_into C s L H Empty_set _ as_decryption XDecryption e TDecryption ds Pj) Rg) as (txs & G & B).
    unfold e2e_tally. destruct (get_multiple s e TDecryption) as [r|[]|]; try discriminate G. injection G as ->. cbn [bind]. rewrite B. reflexivity.
  Qed.
  Lemma tally_of order s L e ds : fair order -> holds s L -> range_is L e TDecryption XDecryption ds -> Forall (fun d => dc_vote d <> []) ds ->
    exists t, e2e_tally order s e = Ok t /\ counts (map dc_vote ds) t.
  Proof.
    intros Fo Hm Rg Ne. assert (Ex : exists t, e2e_tally order s e = Ok t).
    { rewrite (e2e_reads order _ _ _ _ Hm Rg).
      destruct (e2e_count_iff (map dc_vote ds) [] (add_all bytes_eqb (flat_map (fun v => match v with s :: _ => [(text s, 1%N)] | [] => [] end) (map dc_vote ds)) [])) as [_ X].
      rewrite X; [cbn [bind]; eauto|]. split; [|reflexivity]. rewrite Forall_map. exact Ne. }
    destruct Ex as (t & Et). exists t. split; [exact Et|].
    destruct (C63_first_selections_partial order _ _ _ _ Fo Hm Et) as (ds' & Rg' & _ & T1 & T2 & T3).
    assert (ds' = ds) as ->. { unfold range_is in Rg, Rg'. rewrite Rg in Rg'. apply TasksFacts.map_inj in Rg'; [auto|intros a b X; congruence]. }
    constructor.
    - exact T1.
    - unfold grand in T2. rewrite map_length, <- T2. clear. induction t as [|p t IH]; [reflexivity|]. cbn [map fold_right]. rewrite IH. reflexivity.
    - intros c n. rewrite T3, chosen_count. rewrite <- filter_map_len.
      apply and_iff_compat_r. split.
      + intros (d & Id & X). exists (dc_vote d). split; [apply in_map, Id|]. apply first_choice_iff, X.
      + intros (v & Iv & X). apply in_map_iff in Iv as (d & <- & Id). exists d. split; [exact Id|]. apply first_choice_iff, X.
  Qed.
  Lemma no_tally order s L e ds : holds s L -> range_is L e TDecryption XDecryption ds -> ~ Forall (fun d => dc_vote d <> []) ds -> e2e_tally order s e = Panic PIndex.
  Proof.
    intros Hm Rg Ne. rewrite (e2e_reads order _ _ _ _ Hm Rg).
    assert (X : forall l t, ~ Forall (fun d => dc_vote d <> []) l -> e2e_count (map dc_vote l) t = Panic PIndex).
    { induction l as [|d l IH]; intros t N; [destruct N; constructor|]. cbn [map e2e_count]. destruct (dc_vote d) as [|x v] eqn:D; [reflexivity|]. cbn [nth_error or_panic bind]. apply IH.
      intros F. apply N. constructor; [congruence|exact F]. }
    rewrite (X _ _ Ne). reflexivity.
  Qed.

  (** the texts have no line break; fewer than 2^64 votes *)
  Definition plain_texts (ds : list DecryptionTx) : Prop :=
    (forall d x, In d ds -> In x (dc_vote d) -> one_line (text x)) /\ (N.of_nat (length ds) < 2 ^ 64)%N.
  (** what the command needs: with no vote, or with a vote that selects nothing, it stops at the counts *)
  Definition countable (a : Asked) (ds : list DecryptionTx) : Prop :=
    (a_tally a = true \/ a_results a = true -> Forall (fun d => dc_vote d <> []) ds) /\ (a_results a = true -> ds <> []).

  Theorem C99_finishes : forall order order' a s L e ds, fair order -> fair order' -> holds s L -> range_is L e TDecryption XDecryption ds ->
    (snd (report order order' a s e) = Ok tt <-> countable a ds) /\ (~ countable a ds -> snd (report order order' a s e) = Panic PIndex).
  Proof.
    intros order order' a s L e ds Fo Fo' H Rg. unfold report. rewrite next_say, (votes_part_ok s L e ds H Rg).
    assert (D : Forall (fun d => dc_vote d <> []) ds \/ ~ Forall (fun d => dc_vote d <> []) ds).
    { clear. induction ds as [|d ds [IH|IH]]; [left; constructor| |right; intros F; inversion F; auto].
      destruct (dc_vote d) eqn:E; [right; intros F; inversion F; congruence|left; constructor; [congruence|exact IH]]. }
    assert (V : forall b : bool, exists x, (if b then say (votes_text (map dc_vote ds)) else say []) = say x) by (intros []; eauto).
    destruct (V (a_votes a)) as (x & ->). rewrite next_say. clear V. cbn [snd].
    assert (Rs : a_results a = true -> Forall (fun d => dc_vote d <> []) ds -> (ds <> [] -> exists w, results_part order' s e = say w) /\ (ds = [] -> snd (results_part order' s e) = Panic PIndex)).
    { intros _ F. unfold results_part. split; intros N.
      - destruct (tally_of order' s L e ds Fo' H Rg F) as (t & Et & Co). destruct (C83_winner_partial order' s e _ t Et Co) as (w & -> & _); [destruct ds; [congruence|discriminate]|]. eexists. reflexivity.
      - rewrite (no_winner order' s e Fo'); [reflexivity|]. rewrite (holds_multiple _ _ _ _ H). subst ds. unfold range_is in Rg. destruct (listed L e TDecryption); [reflexivity|discriminate Rg]. }
    assert (Rn : ~ Forall (fun d => dc_vote d <> []) ds -> snd (results_part order' s e) = Panic PIndex).
    { intros F. unfold results_part, winner. rewrite (no_tally order' s L e ds H Rg F). reflexivity. }
    unfold countable. destruct (a_tally a) eqn:Ta.
    - destruct D as [D|D].
      + destruct (tally_of order s L e ds Fo H Rg D) as (t & Et & _). unfold tally_part. rewrite Et. cbn [after]. rewrite next_say. cbn [fst snd say].
        match goal with |- context [next (?z, Ok tt) _] => change (z, Ok tt) with (say z) end. rewrite next_say. cbn [snd]. destruct (a_results a) eqn:Ra.
        * destruct (Rs eq_refl D) as [R1 R2]. destruct ds as [|d ds].
          -- rewrite (R2 eq_refl). split; [|auto]. split; [discriminate|]. intros [_ N]. destruct (N eq_refl eq_refl).
          -- destruct R1 as (w & ->); [discriminate|]. cbn [say snd]. split; [|intros N; destruct N; split; [intros _; exact D|discriminate]]. split; [|reflexivity]. intros _. split; [intros _; exact D|discriminate].
        * cbn [say snd]. split; [|intros N; destruct N; split; [intros _; exact D|discriminate]]. split; [|reflexivity]. intros _. split; [intros _; exact D|discriminate].
      + unfold tally_part. rewrite (no_tally order s L e ds H Rg D). cbn [after next say fst snd]. split; [|auto]. split; [discriminate|]. intros [N _]. destruct D. apply N. auto.
    - rewrite next_say. cbn [snd]. destruct (a_results a) eqn:Ra.
      + destruct D as [D|D].
        * destruct (Rs eq_refl D) as [R1 R2]. destruct ds as [|d ds].
          -- rewrite (R2 eq_refl). split; [|auto]. split; [discriminate|]. intros [_ N]. destruct (N eq_refl eq_refl).
          -- destruct R1 as (w & ->); [discriminate|]. cbn [say snd]. split; [|intros N; destruct N; split; [intros _; exact D|discriminate]]. split; [|reflexivity]. intros _. split; [intros _; exact D|discriminate].
        * rewrite (Rn D). split; [|auto]. split; [discriminate|]. intros [N _]. destruct D. apply N. auto.
      + cbn [say snd]. split; [|intros N; destruct N; split; [intros [X|X]; discriminate|discriminate]]. split; [|reflexivity]. intros _. split; [intros [X|X]; discriminate|discriminate].
  Qed.

  (** a vote that selects nothing stops the counts; everything before, and the heading, has been printed *)
  Theorem C99_stopped : forall order order' a s L e ds, holds s L -> range_is L e TDecryption XDecryption ds ->
    a_tally a = true -> (exists d, In d ds /\ dc_vote d = []) ->
    report order order' a s e = (bs "> Election verified OK" ++ nl ++ (if a_votes a then votes_text (map dc_vote ds) else []) ++ bs "Tally:" ++ nl, Panic PIndex).
  Proof.
    intros order order' a s L e ds H Rg Ta (d & Id & Ed).
    assert (D : ~ Forall (fun d => dc_vote d <> []) ds) by (rewrite Forall_forall; intros F; exact (F d Id Ed)).
    unfold report. rewrite next_say, (votes_part_ok s L e ds H Rg), Ta. unfold tally_part. rewrite (no_tally order s L e ds H Rg D).
    destruct (a_votes a); cbn [after next say fst snd]; rewrite <- ?app_assoc, ?app_nil_r; reflexivity.
  Qed.

  Definition vote_rows (xs : list Selection) : list (list bytes) := map (fun s => [vote_body s; []]) xs.
  Lemma rows_ok xs : Forall2 selection_lines (vote_rows xs) (map (fun x => (score x, text x)) xs).
  Proof.
    induction xs as [|x xs IH]; constructor; [|exact IH]. exists (dec_fuel 20 (score x)). split; [|reflexivity]. apply dec_digits_of.
    pose proof (uv_lt (sel_score x)) as X. change (pow256 4) with (2 ^ 32)%N in X. apply (N.lt_trans _ (2 ^ 32)); [exact X|reflexivity].
  Qed.
  Lemma rows_flat xs : concat (vote_rows xs) = flat_map (fun s => [vote_body s; []]) xs.
  Proof. unfold vote_rows. rewrite <- flat_map_concat_map. reflexivity. Qed.
  Lemma counts_ok t : Forall (fun p => one_line (fst p) /\ (snd p < 2 ^ 64)%N) t -> Forall2 count_line (map tally_body t) t.
  Proof. induction 1 as [|p t [_ B] _ IH]; constructor; [|exact IH]. exists (dec_fuel 20 (snd p)). split; [apply dec_digits_of, B|reflexivity]. Qed.
  (** a report that finishes reads as what was published: the selections in order, the counts, a winner *)
  Theorem C99_reads_partial : forall order order' a s L e ds, fair order -> fair order' -> holds s L -> range_is L e TDecryption XDecryption ds ->
    countable a ds -> plain_texts ds -> exists out t w, report order order' a s e = (out, Ok tt)
    /\ reads out (mk_reading (if a_votes a then Some (map (fun x => (score x, text x)) (flat_map dc_vote ds)) else None)
                  (if a_tally a then Some t else None) (if a_results a then Some w else None))
    /\ (a_tally a = true -> counts (map dc_vote ds) t) /\ (a_results a = true -> most (map dc_vote ds) w).
  Proof.
    intros order order' a s L e ds Fo Fo' H Rg [Ct Cr] [Pt Pn].
    assert (Pr : printable (map dc_vote ds)).
    { split; [|rewrite map_length; exact Pn]. intros v c Iv (x & v' & E & <-). apply in_map_iff in Iv as (d & <- & Id). apply (Pt d x Id). rewrite E. left. reflexivity. }
    assert (T : exists t, a_tally a = true -> e2e_tally order s e = Ok t /\ counts (map dc_vote ds) t).
    { destruct (a_tally a) eqn:Ta; [|exists []; discriminate]. destruct (tally_of order s L e ds Fo H Rg (Ct (or_introl eq_refl))) as (t & X). exists t. auto. }
    assert (W : exists w, a_results a = true -> winner order' s e = Ok w /\ most (map dc_vote ds) w).
    { destruct (a_results a) eqn:Ra; [|exists []; discriminate]. destruct (tally_of order' s L e ds Fo' H Rg (Ct (or_intror eq_refl))) as (t & Et & Co).
      destruct (C83_winner_partial order' s e _ t Et Co) as (w & X & M & _); [specialize (Cr eq_refl); destruct ds; [congruence|discriminate]|]. exists w. auto. }
    destruct T as (t & T), W as (w & W).
    set (lv := if a_votes a then bs "Votes:" :: concat (vote_rows (flat_map dc_vote ds)) else []).
    set (lc := if a_tally a then bs "Tally:" :: map tally_body t else []).
    set (lw := if a_results a then [bs "Results:"; bs "  The winner is " ++ w] else []).
    exists (flat_map (fun a => a ++ nl) (bs "> Election verified OK" :: lv ++ lc ++ lw)), t, w.
    assert (Ev : (if a_votes a then votes_part s e else say []) = say (flat_map (fun a => a ++ nl) lv)).
    { unfold lv. destruct (a_votes a); [|reflexivity]. rewrite (votes_part_ok s L e ds H Rg). unfold votes_text. cbn [flat_map]. rewrite rows_flat, vote_lines, <- (flat_map_concat_map dc_vote ds).
      rewrite <- app_assoc. reflexivity. }
    assert (Ec : (if a_tally a then tally_part order s e else say []) = say (flat_map (fun a => a ++ nl) lc)).
    { unfold lc. destruct (a_tally a); [|reflexivity]. destruct (T eq_refl) as [Et _]. unfold tally_part. rewrite Et. cbn [after]. rewrite next_say. cbn [fst snd say flat_map]. rewrite tally_lines. reflexivity. }
    assert (Ew : (if a_results a then results_part order' s e else say []) = say (flat_map (fun a => a ++ nl) lw)).
    { unfold lw. destruct (a_results a); [|reflexivity]. destruct (W eq_refl) as [Et _]. unfold results_part. rewrite Et. cbn [after]. rewrite next_say. cbn [fst snd say flat_map]. rewrite app_nil_r, <- !app_assoc. reflexivity. }
    split; [|split; [|split; [intros X; exact (proj2 (T X))|intros X; exact (proj2 (W X))]]].
    - unfold report. rewrite Ev, Ec, Ew, !next_say. cbn [fst snd say flat_map]. rewrite !flat_map_app. reflexivity.
    - exists lv, lc, lw. split; [|split; [|split]].
      + apply in_lines_flat. constructor; [apply in_lit; reflexivity|]. apply Forall_app. split; [|apply Forall_app; split].
        * unfold lv. destruct (a_votes a); [|constructor]. constructor; [apply in_lit; reflexivity|]. rewrite rows_flat. apply Forall_forall. intros l I. apply in_flat_map in I as (x & Ix & Ia).
          apply in_flat_map in Ix as (d & Id & Ix). destruct Ia as [<-|[<-|[]]]; [|intros []].
          unfold vote_body. apply one_app; [apply in_lit; reflexivity|]. apply one_app; [apply one_dec|]. apply one_app; [apply in_lit; reflexivity|exact (Pt d x Id Ix)].
        * unfold lc. destruct (a_tally a); [|constructor]. destruct (T eq_refl) as [_ Co]. constructor; [apply in_lit; reflexivity|]. rewrite Forall_map.
          apply (Forall_impl _ (P := fun p => one_line (fst p) /\ (snd p < 2 ^ 64)%N)); [|apply (counts_printable _ _ Co Pr)].
          intros p [A _]. unfold tally_body. repeat (apply one_app; [first [exact A|apply one_dec|apply in_lit; reflexivity]|]). apply in_lit. reflexivity.
        * unfold lw. destruct (a_results a); [|constructor]. destruct (W eq_refl) as [_ M]. constructor; [apply in_lit; reflexivity|]. constructor; [|constructor].
          apply one_app; [apply in_lit; reflexivity|]. destruct M as (n & Ch & Po & _). apply (chosen_pos _ _ _ Ch) in Po as (v & Iv & Fc). exact (proj1 Pr v w Iv Fc).
      + unfold lv. cbn [rd_votes]. destruct (a_votes a); [|reflexivity]. eexists. split; [apply rows_ok|reflexivity].
      + unfold lc. cbn [rd_counts]. destruct (a_tally a); [|reflexivity]. destruct (T eq_refl) as [_ Co]. eexists. split; [apply counts_ok, (counts_printable _ _ Co Pr)|reflexivity].
      + unfold lw. cbn [rd_winner]. destruct (a_results a); reflexivity.
  Qed.
  (** each part, where it finishes, is the text that C84 and C83 are about *)
  Lemma loop_iff l out : votes_loop l = say out <-> exists ds, map_res (E := TallyErr) (into_typed as_decryption) l = Ok ds /\ out = flat_map (flat_map vote_line) (map dc_vote ds).
  Proof.
    revert out. induction l as [|x l IH]; intros out; cbn [votes_loop map_res].
    - split; [intros [= <-]; exists []; auto|intros (ds & [= <-] & ->); reflexivity].
    - destruct (into_typed as_decryption x) as [d|e|p]; cbn [after bind].
      + rewrite next_say. destruct (votes_loop l) as [o r] eqn:E. cbn [fst snd]. split.
        * intros [= <- ->]. destruct (proj1 (IH o) eq_refl) as (ds & M & ->). exists (d :: ds). rewrite M. auto.
        * intros (ds & M & ->). destruct (map_res (into_typed as_decryption) l) as [ds'|e'|p'] eqn:M'; try discriminate M. cbn [bind] in M. injection M as <-.
          pose proof (proj2 (IH (flat_map (flat_map vote_line) (map dc_vote ds'))) (ex_intro _ ds' (conj eq_refl eq_refl))) as X. unfold say in X. injection X as -> ->. reflexivity.
      + split; [discriminate|intros (ds & [=] & _)].
      + split; [discriminate|intros (ds & [=] & _)].
  Qed.
  Theorem C99_sections : forall order order' s e out,
    (votes_part s e = say out <-> print_votes s e = Ok out) /\ (tally_part order s e = say out <-> print_tally order s e = Ok out)
    /\ (results_part order' s e = say out <-> print_results order' s e = Ok out).
  Proof.
    intros order order' s e out. split; [|split].
    - unfold votes_part, print_votes. rewrite next_say. destruct (get_multiple s e TDecryption) as [l|[]|p]; cbn [after bind]; [|split; discriminate].
      destruct (votes_loop l) as [o r] eqn:E. cbn [fst snd]. split.
      + intros [= <- ->]. destruct (proj1 (loop_iff l o) E) as (ds & M & ->). rewrite M. cbn [bind]. reflexivity.
      + destruct (map_res (into_typed as_decryption) l) as [ds|e'|p'] eqn:M; cbn [bind]; [|discriminate|discriminate]. intros [= <-].
        pose proof (proj2 (loop_iff l _) (ex_intro _ ds (conj M eq_refl))) as X. rewrite E in X. unfold say in X. injection X as -> ->. reflexivity.
    - unfold tally_part, print_tally. rewrite next_say. destruct (e2e_tally order s e) as [t|x|p]; cbn [after bind fst snd say]; [|split; discriminate|split; discriminate].
      change (tally_text t) with ((sv (lit "Tally:") ++ nl) ++ flat_map tally_line t). unfold say.
      generalize ((sv (lit "Tally:") ++ nl) ++ flat_map tally_line t). intros z. split; [intros [= <-]|intros [= <-]]; reflexivity.
    - unfold results_part, print_results. rewrite next_say. destruct (winner order' s e) as [t|x|p]; cbn [after bind fst snd say]; [|split; discriminate|split; discriminate].
      change (results_text t) with ((sv (lit "Results:") ++ nl) ++ sv (lit "  The winner is ") ++ t ++ nl). unfold say.
      generalize ((sv (lit "Results:") ++ nl) ++ sv (lit "  The winner is ") ++ t ++ nl). intros z. split; [intros [= <-]|intros [= <-]]; reflexivity.
  Qed.
End Report.

Section Cases.
  #[local] Existing Instance Toy.
  (** one vote whose text has line breaks in it is reported as two votes, and as a result that was never computed *)
  Definition two_votes : rstring := @mk_sub bytes utf8_valid (sv (lit "yes") ++ nl ++ nl ++ sv (lit "  0:no")) eq_refl.
  Definition reported (text : rstring) : list STx := setup None ++ vote_sels [sel text].
  Lemma two_checks : match report straight straight (mk_asked true false false) (ms_store (ms_from (reported two_votes))) EID with
    | (out, Ok _) => bytes_eqb out (flat_map (fun a => a ++ nl) [bs "> Election verified OK"; bs "Votes:"; bs "  0:yes"; []; bs "  0:no"; []]) | _ => false end
    && Nat.eqb (length (published EID (n32 0) (reported two_votes))) 1 = true.
  Proof. vm_compute. reflexivity. Qed.
  Theorem C99_readable_refuted : exists l out, history true l
    /\ report straight straight (mk_asked true false false) (ms_store (ms_from l)) EID = (out, Ok tt)
    /\ reads out (mk_reading (Some [(0%N, bs "yes"); (0%N, bs "no")]) None None) /\ length (published EID (n32 0) l) = 1.
  Proof.
    exists (reported two_votes). pose proof two_checks as X. apply andb_prop in X as [X P]. apply Nat.eqb_eq in P. revert X.
    generalize (report straight straight (mk_asked true false false) (ms_store (ms_from (reported two_votes))) EID). intros [out r] X. destruct r as [[]|[]|]; try discriminate X.
    apply bytes_eqb_eq in X. subst out. eexists. split; [apply run_history; vm_compute; reflexivity|]. split; [reflexivity|]. split; [|exact P].
    exists [bs "Votes:"; bs "  0:yes"; []; bs "  0:no"; []], [], []. split; [|split; [|split; reflexivity]].
    - rewrite !app_nil_r. apply in_lines_flat. repeat (constructor; [apply in_lit; reflexivity|]). constructor.
    - exists [[bs "  0:yes"; []]; [bs "  0:no"; []]]. split; [|reflexivity].
      assert (D : digits_of [x30] 0) by (split; [discriminate|split; [constructor; [split; discriminate|constructor]|reflexivity]]).
      constructor; [exists [x30]; split; [exact D|reflexivity]|]. constructor; [exists [x30]; split; [exact D|reflexivity]|constructor].
  Qed.
  (** everything is asked for in [scene_plain] *)
  Example C99_case : report straight straight (mk_asked true true true) (ms_store (ms_from scene_plain)) EID
    = (flat_map (fun a => a ++ nl) [bs "> Election verified OK"; bs "Votes:"; bs "  0:yes"; []; bs "  0:no"; []; bs "Tally:"; bs "  yes got 1 votes"; bs "  no got 1 votes";
         bs "Results:"; bs "  The winner is yes"], Ok tt).
  Proof. vm_compute. reflexivity. Qed.
  Example C99_nobody_case : report straight straight (mk_asked true true true) (ms_store (ms_from (setup None ++ [votingend]))) EID
    = (flat_map (fun a => a ++ nl) [bs "> Election verified OK"; bs "Votes:"; bs "Tally:"; bs "Results:"], Panic PIndex).
  Proof. vm_compute. reflexivity. Qed.
End Cases.
Print Assumptions C99_one_reading.
Print Assumptions C99_finishes.
Print Assumptions C99_reads_partial.
Print Assumptions C99_readable_refuted.
Print Assumptions C99_sections.
Print Assumptions C99_stopped.
