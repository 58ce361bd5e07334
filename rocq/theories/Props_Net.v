(** * C77-C78: a network of honest nodes, block by block, and the elections it runs. *)
From Verif Require Import Base BaseFacts Utf8 Cbor Ident BuildId IdentFacts Crypto Types Serde Store SpecStore StoreFacts
  Validate ValidateFacts SpecValid ValidFacts SpecHist HistFacts Exonum SpecLedger LedgerFacts Api Audit SpecAudit AuditFacts Encrypt Trustee Tasks SpecTasks
  Service SpecService ServiceFacts SpecThreshold Lagrange ThresholdFacts SpecRun RunFacts SpecTally Tally SpecSerde SerdeFacts SpecCli CliFacts SpecOutcome OutcomeFacts
  SpecNet NetFacts Toy ToyT ToyE Scene Props_Threshold Props_Audit Props_Tally Props_Run Props_Outcome.
From Coq Require Import ZifyBool ZifyNat ZifyN Sorting.Permutation.
Open Scope list_scope.

Section Props.
  Context {C : Crypto} {TC : TCrypto} {K : Fld} {M : Mdl} (S : threshold_scheme K M).
  Context {R : Type} (eg : EGPublicKey -> R -> bytes -> Ciphertext * R).
  Section Election.
    Variables (dbg : bool) (el : ElectionTx) (T : people) (contests : list u32).
    Notation e := (el_id el).
    Notation honest := (SpecRun.honest eg dbg el T contests).
    Notation laws := (laws S eg el).
    Notation network := (network eg dbg el T contests).
    Notation recorded_by := (recorded_by dbg).
    Notation Blk := (list (option Env)).

    (** ** C77: whatever the blocks contain and in whatever order, the ledger records an honest history, as
        soon as the election is recorded *)
    Theorem C77_history : laws -> set_up el T contests -> forall bs b, network bs b ->
      history dbg (recorded_by (bs ++ [b]))
      /\ forall x, In x (recorded_by (bs ++ [b])) -> inside el x -> honest (recorded_by (bs ++ [b])).
    Proof.
      intros L SU bs b Nw. pose proof (nw_commit _ _ _ _ _ bs b Nw) as Nw'. destruct L as [DH Op Sc Si En Sh Ve Re].
      destruct (net_chain S DH Op Sc eg dbg el T contests SU Ve _ Nw') as (_ & _ & St & Hh & _). split; [exact Hh|].
      intros x Ix Ins. exact (honest_of eg dbg el T contests _ x St Ix Ins).
    Qed.
    (** whatever a node sends is recorded, in the block that contains it at the latest *)
    Theorem C77_recorded : laws -> set_up el T contests -> forall bs b sk out y, network bs b -> bs <> [] -> node el T sk ->
      sends dbg sk bs out -> In (into_env y) out -> written (into_env y) -> inside el y -> In (Some (into_env y)) b ->
      exists en, recorded (ledger_after dbg (bs ++ [b])) (id_to_string (s_id y)) en.
    Proof.
      intros L SU bs b sk out y Nw Nb Nd Sd Io Wr Ins Ib. destruct L as [DH Op Sc Si En Sh Ve Re].
      destruct (net_chain S DH Op Sc eg dbg el T contests SU Ve _ (nw_commit _ _ _ _ _ bs b Nw)) as (_ & _ & _ & _ & _ & _ & Oc).
      apply Oc. exact (included S DH Op Sc Si eg dbg el T contests SU Ve bs b sk out y Nw Nb Nd Sd Io Wr Ins Ib).
    Qed.
    (** no node of the election is ever stopped by a block, if it is a trustee of this election only *)
    Theorem C77_no_crash : laws -> set_up el T contests -> forall bs sk r, network bs [] -> bs <> [] -> node el T sk -> dedicated dbg el sk bs ->
      exists out, after_commit dbg sk r (fold_left (commit dbg) bs genesis) = Ok out.
    Proof.
      intros L SU bs sk r Nw Nb Nd De. destruct L as [DH Op Sc Si En Sh Ve Re].
      exact (no_crash S DH Op Sc Si eg En dbg el T contests SU Ve Re Sh bs sk r Nw Nb Nd De).
    Qed.

    (** ** C78: when the election stands still and everything the nodes sent has been recorded, *)
    Lemma net_honest : laws -> set_up el T contests -> forall bs i t, network bs [] -> at_id (recorded_by bs) i t -> id_election i = id_election e ->
      honest (recorded_by bs).
    Proof.
      intros L SU bs i t Nw (x & Ix & Ex & _) Ei. destruct L as [DH Op Sc Si En Sh Ve Re].
      destruct (net_chain S DH Op Sc eg dbg el T contests SU Ve _ Nw) as (_ & _ & St & _).
      apply (honest_of eg dbg el T contests _ x St Ix). unfold inside. rewrite Ex. exact Ei.
    Qed.
    (** the key is recorded *)
    Theorem C78_key : laws -> set_up el T contests -> forall bs sk, network bs [] ->
      at_id (recorded_by bs) e (XElection el) -> settled dbg el bs ->
      node el T sk -> ed_public sk = el_authority el -> delivered dbg el sk bs -> (forall p, In p T -> delivered dbg el (snd p) bs) ->
      exists k, at_id (recorded_by bs) (slot0 e TEncryptionKey) (XEncryptionKey k) /\ ek_key k = ts_key S (joint_key S T e).
    Proof.
      intros L SU bs sk Nw Es Se Nd Au De Al. pose proof (net_honest L SU bs _ _ Nw Es eq_refl) as Ho.
      assert (An : forall sk' x, node el T sk' -> delivered dbg el sk' bs -> In x (recorded_by bs) -> inside el x -> answers dbg (recorded_by bs) sk' x).
      { destruct L as [DH Op Sc Si En Sh Ve Re]. intros sk' x N' D' Ix Ins.
        exact (settled_answers S DH Op Sc Si eg En dbg el T contests SU Ve Re Sh bs sk' x Nw N' D' Se Ix Ins). }
      destruct (C72_key_recorded S eg dbg el T contests L SU (recorded_by bs) sk Ho) as (k & Ke & Ek & _); [|exists k; auto]. split; [exact Nd|exact Au| |].
      - intros x p Ix Ins Ip. assert (A : answers dbg (recorded_by bs) (snd p) x) by (apply An; [left; exists p; auto|apply Al, Ip|exact Ix|exact Ins]).
        destruct (s_tx x); (exact A || exact I).
      - intros x Ix Ins. pose proof (An sk x Nd De Ix Ins) as A. destruct (s_tx x); (exact A || exact I).
    Qed.
    (** as many trustees as the threshold says, with a mixnet among them the one that mixes *)
    Record sufficient (Q : people) : Prop := {
      sf_trustees : incl Q T;
      sf_distinct : NoDup Q;
      sf_enough : (u8v (el_threshold el) <= N.of_nat (List.length Q))%N;
      sf_mixer : el_mix_config el <> None -> exists p, In p Q /\ tr_index (fst p) = x01
    }.
    Lemma net_quorum : laws -> set_up el T contests -> forall bs Q, network bs [] -> settled dbg el bs -> sufficient Q ->
      (forall p, In p Q -> delivered dbg el (snd p) bs) -> quorum dbg el T Q (recorded_by bs).
    Proof.
      intros L SU bs Q Nw Se [Q1 Q2 Q3 Q4] Al. destruct L as [DH Op Sc Si En Sh Ve Re]. split; try assumption. intros x p Ix Ins Ip.
      assert (A : answers dbg (recorded_by bs) (snd p) x).
      { apply (settled_answers S DH Op Sc Si eg En dbg el T contests SU Ve Re Sh bs (snd p) x Nw); [left; exists p; auto|apply Al, Ip|exact Se|exact Ix|exact Ins]. }
      destruct (s_tx x); (exact A || exact I).
    Qed.
    (** and, when voting has ended, exactly the votes cast are published *)
    Theorem C78_published : laws -> set_up el T contests -> forall bs Q k c cast, network bs [] -> settled dbg el bs -> ended el (recorded_by bs) ->
      sufficient Q -> (forall p, In p Q -> delivered dbg el (snd p) bs) ->
      at_id (recorded_by bs) (slot0 e TEncryptionKey) (XEncryptionKey k) ->
      Forall2 (encrypted eg (ek_key k)) (ballots el (recorded_by bs) c) cast ->
      Permutation (map dc_vote (decryptions_of el (recorded_by bs) c)) cast.
    Proof.
      intros L SU bs Q k c cast Nw Se Ed Su Al Ke F. pose proof (net_honest L SU bs _ _ Nw Ke eq_refl) as Ho.
      pose proof (net_quorum L SU bs Q Nw Se Su Al) as Qu. exact (proj2 (C73_published S eg dbg el T contests L SU _ Q k c Ho Ed Qu Ke) cast F).
    Qed.
    (** and the command that audits the election succeeds and prints their count *)
    Theorem C78_command : laws -> set_up el T contests -> forall bs (s : rstring) Q k cast order, network bs [] -> settled dbg el bs -> ended el (recorded_by bs) ->
      sufficient Q -> (forall p, In p Q -> delivered dbg el (snd p) bs) ->
      at_id (recorded_by bs) (slot0 e TEncryptionKey) (XEncryptionKey k) ->
      Forall2 (encrypted eg (ek_key k)) (entries el (recorded_by bs)) cast ->
      sv s = id_to_string e -> selects el (shares_prefix e) (recorded_by bs) -> fair order -> Forall (fun v => v <> []) cast ->
      exists m t, command_e2e dbg (ledger_after dbg bs) s = Ok m /\ e2e_tally order (ms_store m) e = Ok t /\ counts cast t.
    Proof.
      intros L SU bs s Q k cast order Nw Se Ed Su Al Ke F Hs Sl Fo Ne. pose proof (net_honest L SU bs _ _ Nw Ke eq_refl) as Ho.
      pose proof (net_quorum L SU bs Q Nw Se Su Al) as Qu.
      assert (Hon : Forall SpecLedger.honest (envelopes bs)).
      { destruct L as [DH Op Sc Si En Sh Ve Re]. apply (net_chain S DH Op Sc eg dbg el T contests SU Ve _ Nw). }
      exact (C76_command S eg dbg el T contests L SU (envelopes bs) s Q k cast order Hon Hs Ho Sl Ed Qu Ke F Fo Ne).
    Qed.
    (** sixteen blocks after the end of voting are enough, if each contains all that the nodes sent *)
    Theorem C78_rounds : laws -> set_up el T contests -> forall bs new Q k c cast, network (bs ++ new) [] -> bs <> [] -> ended el (recorded_by bs) ->
      sufficient Q -> (forall p, In p Q -> delivered dbg el (snd p) bs) -> rounds dbg el (map snd Q) bs new -> 16 <= length new ->
      at_id (recorded_by bs) (slot0 e TEncryptionKey) (XEncryptionKey k) ->
      Forall2 (encrypted eg (ek_key k)) (ballots el (recorded_by bs) c) cast ->
      Permutation (map dc_vote (decryptions_of el (recorded_by (bs ++ new)) c)) cast.
    Proof.
      intros L SU bs new Q k c cast Nw Nb Ed Su Al Ro Ln Ke F. destruct (by_prefix dbg bs new) as (h' & Eh).
      assert (Ed' : ended el (recorded_by (bs ++ new))) by (rewrite Eh; destruct Ed as (x & Ix & Ex); exists x; split; [apply in_or_app; left; exact Ix|exact Ex]).
      assert (Ke' : at_id (recorded_by (bs ++ new)) (slot0 e TEncryptionKey) (XEncryptionKey k))
        by (rewrite Eh; destruct Ke as (x & Ix & Ex); exists x; split; [apply in_or_app; left; exact Ix|exact Ex]).
      pose proof (net_honest L SU _ _ _ Nw Ke' eq_refl) as Ho.
      assert (Nn : forall sk, In sk (map snd Q) -> node el T sk).
      { intros sk I. apply in_map_iff in I as (p & <- & I). left. exists p. split; [apply (sf_trustees _ Su), I|reflexivity]. }
      pose proof L as [DH Op Sc Si En Sh Ve Re].
      apply (C78_published L SU (bs ++ new) Q k c cast Nw); try assumption.
      - exact (rounds_settle S DH Op Sc eg dbg el T contests SU Ve (map snd Q) bs Nn new Ro Nw Nb Ln).
      - intros p Ip. exact (rounds_deliver S DH Op Sc Si eg dbg el T contests SU Ve (map snd Q) bs Nn new Ro Nw Nb (snd p) (in_map snd _ _ Ip) (Al p Ip)).
      - rewrite Eh in Ho |- *. rewrite (ballots_frozen S eg dbg el T contests L SU _ h' c Ho Ed). exact F.
    Qed.
    (** and such blocks can always be made, if what the nodes send can be read back *)
    Lemma filled bs l : network bs [] -> (forall en, In en l -> exists sk out, node el T sk /\ sends dbg sk bs out /\ In en out /\ written en) -> bs <> [] ->
      network bs (map Some l).
    Proof.
      intros Nw H Nb. induction l as [|en l IH] using rev_ind; [exact Nw|]. rewrite map_app. apply nw_env; [apply IH; intros en' I; apply H, in_or_app; auto|].
      destruct (H en) as (sk & out & Nd & Sd & Io & Wr); [apply in_or_app; right; left; reflexivity|].
      apply (or_node _ _ _ _ _ _ _ _ bs [] sk out); try assumption. rewrite app_nil_r. reflexivity.
    Qed.
    Lemma dedicated_more bs b sk : laws -> set_up el T contests -> network bs [] -> network (bs ++ [b]) [] -> bs <> [] ->
      (forall en, In (Some en) b -> exists sk' out, node el T sk' /\ sends dbg sk' bs out /\ In en out /\ written en) ->
      dedicated dbg el sk bs -> dedicated dbg el sk (bs ++ [b]).
    Proof.
      intros L SU Nw Nw' Nb H De x el' Ix Tx Out. rewrite by_app in Ix. apply in_app_or in Ix as [Ix|Ix]; [exact (De x el' Ix Tx Out)|exfalso].
      destruct L as [DH Op Sc Si En Sh Ve Re]. destruct (accepted_from dbg b _ x Ix) as (en & Ie & Ca). destruct (H en Ie) as (sk' & out & Nd & Sd & Io & Wr).
      destruct (net_chain S DH Op Sc eg dbg el T contests SU Ve bs Nw) as (F1 & _).
      destruct (sends_inv dbg sk' bs out en Nb F1 Sd Io) as (r & en0 & x' & l & y & _ & _ & _ & G & Iy & Ey & _).
      destruct (gen_follows dbg sk' r _ _ x' l y (stored_holds _) G Iy) as (Ne & _ & Pl).
      pose proof (env_carries y (written_small _ y Wr Ey)) as Cy. rewrite (sendable_norm y) in Cy by (split; [exact (written_small _ y Wr Ey)|exact Pl]).
      rewrite <- Ey in Cy. unfold carries in *. assert (x = y) as -> by congruence. rewrite Tx in Ne. discriminate Ne.
    Qed.
    Lemma driven_rounds : laws -> set_up el T contests -> forall (r : nat -> Rnd) bs ns, bs <> [] -> (forall sk, In sk ns -> node el T sk) ->
      forall n new, network (bs ++ new) [] -> rounds dbg el ns bs new -> (forall sk, In sk ns -> dedicated dbg el sk (bs ++ new)) ->
      let more := driven dbg r ns (fold_left (commit dbg) (bs ++ new) genesis) n in all_written more ->
      network (bs ++ new ++ more) [] /\ rounds dbg el ns bs (new ++ more) /\ forall sk, In sk ns -> dedicated dbg el sk (bs ++ new ++ more).
    Proof.
      intros L SU r bs ns Nb Hn. induction n as [|n IH]; intros new Nw Ro De more W; subst more; cbn [driven] in *; cbv zeta in W.
      - rewrite !app_nil_r. auto.
      - assert (Nb' : bs ++ new <> []) by (destruct bs; [contradiction|discriminate]).
        set (outs := fun sk => match after_commit dbg sk r (fold_left (commit dbg) (bs ++ new) genesis) with Ok l => l | _ => [] end) in *.
        assert (Sd : forall sk, In sk ns -> sends dbg sk (bs ++ new) (outs sk)).
        { intros sk I. exists r. unfold outs. destruct (C77_no_crash L SU (bs ++ new) sk r Nw Nb' (Hn sk I) (De sk I)) as (out & ->). reflexivity. }
        set (b := map Some (flat_map outs ns)) in *.
        assert (Inv : forall en, In (Some en) b -> In en (flat_map outs ns)).
        { intros en I. apply in_map_iff in I as (en' & E & I). injection E as ->. exact I. }
        assert (From : forall en, In en (flat_map outs ns) -> exists sk out, In sk ns /\ sends dbg sk (bs ++ new) out /\ In en out /\ written en).
        { intros en I. pose proof (W b en (or_introl eq_refl) (in_map Some _ _ I)) as Wr.
          apply in_flat_map in I as (sk & Is & Ie). exists sk, (outs sk). split; [exact Is|]. split; [apply Sd, Is|]. split; [exact Ie|exact Wr]. }
        assert (Or : forall en, In en (flat_map outs ns) -> exists sk out, node el T sk /\ sends dbg sk (bs ++ new) out /\ In en out /\ written en).
        { intros en I. destruct (From en I) as (sk & out & Is & X). exists sk, out. split; [apply (Hn sk Is)|exact X]. }
        pose proof (nw_commit _ _ _ _ _ _ _ (filled (bs ++ new) _ Nw Or Nb')) as Nw'. fold b in Nw'. rewrite <- app_assoc in Nw'.
        assert (Ec : commit dbg (fold_left (commit dbg) (bs ++ new) genesis) b = fold_left (commit dbg) (bs ++ new ++ [b]) genesis)
          by (rewrite app_assoc, (fold_left_app (commit dbg) (bs ++ new)); reflexivity).
        specialize (IH (new ++ [b])). rewrite <- Ec in IH. cbv zeta. rewrite <- !app_assoc in IH. cbn [app] in IH. apply IH.
        + exact Nw'.
        + constructor; [exact Ro| |].
          * intros sk I. exists (outs sk). split; [apply Sd, I|]. intros en Ie. apply in_map, in_flat_map. exists sk. auto.
          * intros en I. right. exact (From en (Inv en I)).
        + intros sk I. rewrite app_assoc. rewrite app_assoc in Nw'.
          apply (dedicated_more (bs ++ new) b sk L SU Nw Nw' Nb'); [intros en Ie; apply Or, Inv, Ie|apply De, I].
        + intros b' en Ib. apply W. right. exact Ib.
    Qed.
    Lemma driven_len r ns n : forall nd, length (driven dbg r ns nd n) = n.
    Proof. induction n as [|n IH]; intros nd; cbn [driven length]; congruence. Qed.
    Lemma driven_on : laws -> set_up el T contests -> forall (r : nat -> Rnd) bs ns n, network bs [] -> bs <> [] -> (forall sk, In sk ns -> node el T sk) ->
      (forall sk, In sk ns -> delivered dbg el sk bs /\ dedicated dbg el sk bs) ->
      let new := driven dbg r ns (fold_left (commit dbg) bs genesis) n in all_written new ->
      network (bs ++ new) [] /\ rounds dbg el ns bs new /\ length new = n.
    Proof.
      intros L SU r bs ns n Nw Nb Hn Al new W.
      pose proof (driven_rounds L SU r bs ns Nb Hn n []) as H. rewrite app_nil_r in H. cbn [app] in H.
      destruct (H Nw (ro_none _ _ _ _) (fun sk I => proj2 (Al sk I)) W) as (Nw' & Ro & _). split; [exact Nw'|]. split; [exact Ro|]. apply driven_len.
    Qed.
    (** so the nodes make the key of the election by themselves, in sixteen blocks that contain what they send, *)
    Theorem C78_key_made : laws -> set_up el T contests -> forall (r : nat -> Rnd) bs sk n, network bs [] -> bs <> [] ->
      at_id (recorded_by bs) e (XElection el) -> node el T sk -> ed_public sk = el_authority el ->
      (forall sk', In sk' (sk :: map snd T) -> delivered dbg el sk' bs /\ dedicated dbg el sk' bs) ->
      let new := driven dbg r (sk :: map snd T) (fold_left (commit dbg) bs genesis) n in 16 <= n -> all_written new ->
      network (bs ++ new) []
      /\ exists k, at_id (recorded_by (bs ++ new)) (slot0 e TEncryptionKey) (XEncryptionKey k) /\ ek_key k = ts_key S (joint_key S T e).
    Proof.
      intros L SU r bs sk n Nw Nb Es Nd Au Al new Le W.
      assert (Nn : forall sk', In sk' (sk :: map snd T) -> node el T sk').
      { intros sk' [<-|I]; [exact Nd|]. apply in_map_iff in I as (p & <- & I). left. exists p. auto. }
      destruct (driven_on L SU r bs (sk :: map snd T) n Nw Nb Nn Al W) as (Nw' & Ro & Ln). fold new in Nw', Ro, Ln. split; [exact Nw'|].
      pose proof L as [DH Op Sc Si En Sh Ve Re]. rewrite <- Ln in Le.
      pose proof (rounds_settle S DH Op Sc eg dbg el T contests SU Ve _ bs Nn new Ro Nw' Nb Le) as Se.
      assert (De : forall sk', In sk' (sk :: map snd T) -> delivered dbg el sk' (bs ++ new))
        by (intros sk' I; exact (rounds_deliver S DH Op Sc Si eg dbg el T contests SU Ve _ bs Nn new Ro Nw' Nb sk' I (proj1 (Al sk' I)))).
      apply (C78_key L SU (bs ++ new) sk Nw'); try assumption.
      - destruct (by_prefix dbg bs new) as (h' & ->). destruct Es as (x & Ix & Ex). exists x. split; [apply in_or_app; left; exact Ix|exact Ex].
      - apply De. left. reflexivity.
      - intros p Ip. apply De. right. apply in_map, Ip.
    Qed.
    (** and finish it when voting has ended *)
    Theorem C78_finished : laws -> set_up el T contests -> forall (r : nat -> Rnd) bs Q k n, network bs [] -> bs <> [] -> ended el (recorded_by bs) ->
      sufficient Q -> (forall p, In p Q -> delivered dbg el (snd p) bs /\ dedicated dbg el (snd p) bs) ->
      let new := driven dbg r (map snd Q) (fold_left (commit dbg) bs genesis) n in 16 <= n -> all_written new ->
      at_id (recorded_by bs) (slot0 e TEncryptionKey) (XEncryptionKey k) ->
      network (bs ++ new) [] /\ forall c cast, Forall2 (encrypted eg (ek_key k)) (ballots el (recorded_by bs) c) cast ->
        Permutation (map dc_vote (decryptions_of el (recorded_by (bs ++ new)) c)) cast.
    Proof.
      intros L SU r bs Q k n Nw Nb Ed Su Al new Le W Ke.
      destruct (driven_on L SU r bs (map snd Q) n Nw Nb) as (Nw' & Ro & Ln).
      - intros sk I. apply in_map_iff in I as (p & <- & I). left; exists p; split; [apply (sf_trustees _ Su), I|reflexivity].
      - intros sk I. apply in_map_iff in I as (p & <- & I). apply (Al p I).
      - exact W.
      - fold new in Nw', Ro, Ln. split; [exact Nw'|]. intros c cast F.
        apply (C78_rounds L SU bs new Q k c cast); try assumption; [intros p Ip; apply (Al p Ip)|rewrite Ln; exact Le].
    Qed.
  End Election.

  (** ** C79: the nodes never ask again: after two blocks without envelopes none of them sends anything, whatever
      the ledger holds *)
  Lemma follow_none dbg sk r L b : (forall o, In o b -> o = None) -> forall n, follow_block dbg sk r n L b = Ok [].
  Proof.
    induction b as [|o b IH]; intros H n; cbn [follow_block]; [reflexivity|]. rewrite (H o (or_introl eq_refl)). cbn [follow_up bind].
    rewrite IH; [reflexivity|]. intros o' I. apply H. right. exact I.
  Qed.
  Lemma hook_none dbg sk r bs b c : (forall o, In o b -> o = None) -> after_commit dbg sk r (fold_left (commit dbg) (bs ++ [b; c]) genesis) = Ok [].
  Proof.
    intros H. pose proof (hook_block dbg sk r (bs ++ [b; c])) as E. unfold ServiceFacts.node_of in E. rewrite E by (destruct bs; discriminate).
    apply follow_none. replace (nth _ _ _) with b; [exact H|]. rewrite app_length. cbn [length].
    replace (length bs + 2 - 1) with (Datatypes.S (length bs)) by lia. cbn [nth]. rewrite app_nth2, Nat.sub_diag by lia. reflexivity.
  Qed.
  Theorem C79_silence dbg r ns n : forall bs b c, (forall o, In o b -> o = None) -> (forall o, In o c -> o = None) ->
    driven dbg r ns (fold_left (commit dbg) (bs ++ [b; c]) genesis) n = repeat [] n.
  Proof.
    induction n as [|n IH]; intros bs b c Hb Hc; cbn [driven repeat]; [reflexivity|].
    assert (E : flat_map (fun sk => match after_commit dbg sk r (fold_left (commit dbg) (bs ++ [b; c]) genesis) with Ok out => out | _ => [] end) ns = [])
      by (clear IH; induction ns as [|sk ns IHs]; [reflexivity|]; cbn [flat_map]; rewrite (hook_none dbg sk r bs b c Hb); exact IHs).
    rewrite E. cbn [map]. f_equal.
    replace (commit dbg (fold_left (commit dbg) (bs ++ [b; c]) genesis) []) with (fold_left (commit dbg) ((bs ++ [b]) ++ [c; []]) genesis).
    - apply IH; [exact Hc|intros o []].
    - change (commit dbg ?x []) with (fold_left (commit dbg) [[]] x). rewrite <- fold_left_app, <- !app_assoc. reflexivity.
  Qed.
End Props.

(** ** Concrete cases: the elections of C73, run block by block *)
Section Case.
  Local Existing Instance ToyE.
  Local Existing Instance ToyET.
  Local Existing Instance Fq.
  Local Existing Instance Gq.
  Notation Blk := (list (option Env)).
  Definition rnds : nat -> Rnd := fun _ => rnd0.
  (** a block holds what a node sends, what a client sends, the election, or something that is no envelope *)
  Inductive item := From (w : nat) | Client (s : step) | Start | Junk.
  Section Script.
    Variables (el : ElectionTx) (T : people) (contests : list u32) (auth : byte).
    Hypothesis au : el_authority el = @ed_public ToyE (key_of auth).
    Hypothesis au_T : forall p, In p T -> tr_public_key (fst p) <> el_authority el.
    Notation network := (network e_encrypt true el T contests).
    Definition secret (w : nat) : @ed_secret ToyE := secret_of T auth w.
    (** committed blocks, the next block, the ledgers after both, and what is recorded *)
    Record st := mk_st { st_bs : list Blk; st_b : Blk; st_old : Ledger; st_new : Ledger; st_h : list STx }.
    Definition at_last (s : st) : Service.Node := mk_node ([] :: st_bs s) (st_old s).
    Definition hook (s : st) (w : nat) : res Empty_set (list Env) := @after_commit ToyE ToyET true (secret w) rnds (at_last s).
    Definition push (s : st) (en : Env) : st :=
      match verify_and_store true (st_new s) en with
      | Ok L' => mk_st (st_bs s) (st_b s ++ [Some en]) (st_old s) L' (st_h s ++ match stx_from_bytes (en_data en) with Ok x => [x] | _ => [] end)
      | _ => mk_st (st_bs s) (st_b s ++ [Some en]) (st_old s) (st_new s) (st_h s)
      end.
    Definition writtenb (en : Env) : bool :=
      match stx_from_bytes (en_data en) with Ok _ => (N.of_nat (length (en_data en)) <? 2 ^ 64)%N | _ => false end.
    Definition client (s : st) (y : STx) : option st := if fits y && plainb y then Some (push s (into_env y)) else None.
    Definition fill (s : st) (i : item) : option st :=
      match i with
      | From w => match st_bs s with
                  | [] => None
                  | _ => match hook s w with
                         | Ok out => if forallb writtenb out then Some (fold_left push out s) else None
                         | _ => None
                         end
                  end
      | Client (Props_Run.Node _ _ _ _) => None
      | Client c => match step_of el T contests auth (st_h s) c with Some y => client s y | None => None end
      | Start => client s (first el auth)
      | Junk => Some (mk_st (st_bs s) (st_b s ++ [None]) (st_old s) (st_new s) (st_h s))
      end.
    Fixpoint fill_all (s : st) (l : list item) : option st :=
      match l with [] => Some s | i :: l' => match fill s i with Some s' => fill_all s' l' | None => None end end.
    Definition close (s : st) : st := mk_st (st_bs s ++ [st_b s]) [] (st_new s) (st_new s) (st_h s).
    (** the addresses of all that the nodes [ws] send *)
    Fixpoint outs (s : st) (ws : list nat) : option (list bytes) :=
      match ws with
      | [] => Some []
      | w :: ws' => match hook s w, outs s ws' with
                    | Ok out, Some l => Some (map (fun en => sv (en_id en)) out ++ l)
                    | _, _ => None
                    end
      end.
    Fixpoint script (ws : list nat) (s : st) (sent : list bytes) (l : list (list item)) : option (st * list bytes) :=
      match l with
      | [] => Some (s, sent)
      | b :: l' => match fill_all s b, (match st_bs s with [] => Some [] | _ => outs s ws end) with
                   | Some s', Some new => script ws (close s') (new ++ sent) l'
                   | _, _ => None
                   end
      end.

    Definition inv (s : st) : Prop :=
      network (st_bs s) (st_b s) /\ st_old s = ledger_after true (st_bs s)
      /\ st_new s = ledger_after true (st_bs s ++ [st_b s]) /\ st_h s = recorded_by true (st_bs s ++ [st_b s]).
    Lemma inv_node s : inv s -> fold_left (commit true) (st_bs s) genesis = at_last s.
    Proof.
      intros (_ & Eo & _). pose proof (node_chain true (st_bs s)) as [A B]. unfold ServiceFacts.node_of in A, B. unfold at_last.
      destruct (fold_left (commit true) (st_bs s) genesis) as [c L]. cbn [nd_chain nd_ledger] in A, B. subst c L. rewrite Eo. reflexivity.
    Qed.
    Lemma inv_push s en : inv s -> origin e_encrypt true el T contests (st_bs s) (st_h s) en -> inv (push s en).
    Proof.
      intros (Nw & Eo & En & Eh) Or. rewrite Eh in Or. pose proof (nw_env _ _ _ _ _ _ _ en Nw Or) as Nw'.
      assert (EL : ledger_after true (st_bs s ++ [st_b s ++ [Some en]]) = submit true (st_new s) en).
      { unfold ledger_after. rewrite env_fill. unfold run. rewrite fold_left_app, En. reflexivity. }
      assert (EH : recorded_by true (st_bs s ++ [st_b s ++ [Some en]]) = st_h s ++ accepted true (st_new s) [en]).
      { unfold recorded_by. rewrite env_fill, accepted_app, Eh, En. reflexivity. }
      cbn [accepted] in EH. unfold submit in EL. unfold push, inv.
      destruct (verify_and_store true (st_new s) en) as [L'|?|?]; cbn [st_bs st_b st_old st_new st_h]; rewrite EL, EH; repeat (split; [assumption|]); split; try reflexivity.
      all: destruct (stx_from_bytes (en_data en)); cbn [app]; rewrite ?app_nil_r; reflexivity.
    Qed.
    Lemma push_bs s en : st_bs (push s en) = st_bs s.
    Proof. unfold push. destruct (verify_and_store _ _ _); reflexivity. Qed.
    Lemma writtenb_ok en : writtenb en = true -> written en.
    Proof. unfold writtenb, written, carries. destruct (stx_from_bytes (en_data en)) as [x|?|?]; try discriminate. intros H. apply N.ltb_lt in H. eauto. Qed.
    Lemma client_sound y : fits y && plainb y = true -> SpecLedger.honest (into_env y) /\ carries (into_env y) y.
    Proof.
      intros H. apply andb_true_iff in H as [F P]. unfold fits in F. apply andb_true_iff in F as [F1 F2]. apply Nat.leb_le in F2.
      assert (Tr : transportable y) by (split; assumption). apply plainb_ok in P. pose proof (env_carries y Tr) as Ca.
      rewrite (sendable_norm y) in Ca by (split; assumption). split; [apply env_honest, Tr|exact Ca].
    Qed.
    Lemma fill_inv s i s' : inv s -> fill s i = Some s' -> inv s'.
    Proof.
      intros Iv. destruct i as [w|c| |]; cbn [fill].
      - destruct (st_bs s) as [|b0 bs0] eqn:Eb; [discriminate|].
        destruct (hook s w) as [out|?|?] eqn:A; try discriminate. destruct (forallb writtenb out) eqn:W; [|discriminate].
        intros X. injection X as <-. rewrite forallb_forall in W.
        assert (H : forall l s0, incl l out -> inv s0 -> st_bs s0 = st_bs s -> inv (fold_left push l s0)); [|apply H; [apply incl_refl|exact Iv|reflexivity]].
        induction l as [|en l IH]; intros s0 Inc Iv0 E0; [exact Iv0|]. cbn [fold_left]. apply IH; [intros z Iz; apply Inc; right; exact Iz| |rewrite push_bs; exact E0].
        apply inv_push; [exact Iv0|]. rewrite E0. apply (or_node _ _ _ _ _ _ _ _ (st_bs s) [] (secret w) out).
        + rewrite app_nil_r. reflexivity.
        + rewrite Eb. discriminate.
        + apply (node_of el T auth au au_T).
        + exists rnds. rewrite (inv_node s Iv). exact A.
        + apply Inc. left. reflexivity.
        + apply writtenb_ok, W, Inc. left. reflexivity.
      - destruct c as [n w i j|k entries|]; [discriminate| |].
        + destruct (step_of el T contests auth (st_h s) (Cast k entries)) as [y|] eqn:E; [|discriminate]. apply cast_voter in E as ((v & Tv & Vo) & _).
          unfold client. destruct (fits y && plainb y) eqn:F; [|discriminate]. apply client_sound in F as [F1 F2]. intros X. injection X as <-.
          apply inv_push; [exact Iv|]. exact (or_vote _ _ _ _ _ _ _ _ y v F1 F2 Tv Vo).
        + destruct (step_of el T contests auth (st_h s) Close) as [y|] eqn:E; [|discriminate]. apply close_end in E as ((ve & Tv & V1 & V2) & Ke & _).
          unfold client. destruct (fits y && plainb y) eqn:F; [|discriminate]. apply client_sound in F as [F1 F2]. intros X. injection X as <-.
          apply inv_push; [exact Iv|]. exact (or_end _ _ _ _ _ _ _ _ y ve F1 F2 Tv V1 V2 Ke).
      - unfold client. destruct (fits _ && plainb _) eqn:F; [|discriminate]. apply client_sound in F as [F1 F2]. intros X. injection X as <-.
        apply inv_push; [exact Iv|]. exact (or_start _ _ _ _ _ _ _ _ _ F1 F2 eq_refl).
      - intros X. injection X as <-. destruct Iv as (Nw & Eo & En & Eh). unfold inv. cbn [st_bs st_b st_old st_new st_h].
        split; [apply nw_junk, Nw|]. split; [exact Eo|]. unfold ledger_after, recorded_by. rewrite env_fill, app_nil_r. split; assumption.
    Qed.
    Lemma fill_bs s i s' : fill s i = Some s' -> st_bs s' = st_bs s.
    Proof.
      destruct i as [w|c| |]; cbn [fill].
      - destruct (st_bs s) as [|b0 bs0] eqn:Eb; [discriminate|]. destruct (hook s w) as [out|?|?]; try discriminate.
        destruct (forallb writtenb out); [|discriminate]. intros X. injection X as <-. rewrite <- Eb. clear. revert s.
        induction out as [|en l IH]; intros s; [reflexivity|]. cbn [fold_left]. rewrite IH. apply push_bs.
      - destruct c as [n w i j|k entries|]; [discriminate| |]; (destruct (step_of _ _ _ _ _ _) as [y|]; [|discriminate]); unfold client;
          (destruct (_ && _); [|discriminate]); intros X; injection X as <-; apply push_bs.
      - unfold client. destruct (_ && _); [|discriminate]. intros X; injection X as <-; apply push_bs.
      - intros X. injection X as <-. reflexivity.
    Qed.
    Lemma fill_all_inv l : forall s s', inv s -> fill_all s l = Some s' -> inv s' /\ st_bs s' = st_bs s.
    Proof.
      induction l as [|i l IH]; intros s s' Iv; cbn [fill_all]; [intros X; injection X as <-; auto|].
      destruct (fill s i) as [s1|] eqn:E; [|discriminate]. intros X. destruct (IH s1 s' (fill_inv s i s1 Iv E) X) as [A B].
      split; [exact A|]. rewrite B. exact (fill_bs s i s1 E).
    Qed.
    Lemma close_inv s : inv s -> inv (close s).
    Proof.
      intros (Nw & Eo & En & Eh). unfold inv, close. cbn [st_bs st_b st_old st_new st_h]. split; [apply nw_commit, Nw|].
      split; [exact En|]. unfold ledger_after, recorded_by. rewrite env_empty. split; assumption.
    Qed.
    (** whatever the nodes [ws] sent is listed *)
    Definition listed_outs (ws : list nat) (bs : list Blk) (sent : list bytes) : Prop :=
      forall w, In w ws -> forall bs1 b bs2, bs = bs1 ++ b :: bs2 -> bs1 <> [] ->
      exists out, sends true (secret w) bs1 out /\ forall en, In en out -> In (sv (en_id en)) sent.
    Lemma outs_ok s ws l : inv s -> outs s ws = Some l -> forall w, In w ws -> exists out, sends true (secret w) (st_bs s) out /\ forall en, In en out -> In (sv (en_id en)) l.
    Proof.
      intros Iv. revert l. induction ws as [|w ws IH]; intros l; cbn [outs]; [intros _ w []|].
      destruct (hook s w) as [out|?|?] eqn:A; try discriminate. destruct (outs s ws) as [l'|] eqn:E; [|discriminate]. intros X. injection X as <-.
      intros w' [<-|I].
      - exists out. split; [exists rnds; rewrite (inv_node s Iv); exact A|]. intros en Ie. apply in_or_app. left. exact (in_map (fun en => sv (en_id en)) _ _ Ie).
      - destruct (IH l' eq_refl w' I) as (out' & S1 & S2). exists out'. split; [exact S1|]. intros en Ie. apply in_or_app. right. apply S2, Ie.
    Qed.
    Lemma script_ok ws l : forall s sent s' sent', inv s -> st_b s = [] -> listed_outs ws (st_bs s) sent -> script ws s sent l = Some (s', sent') ->
      inv s' /\ st_b s' = [] /\ listed_outs ws (st_bs s') sent'.
    Proof.
      induction l as [|b l IH]; intros s sent s' sent' Iv Eb Li; cbn [script]; [intros X; injection X as <- <-; auto|].
      destruct (fill_all s b) as [s1|] eqn:F; [|discriminate]. destruct (fill_all_inv b s s1 Iv F) as [Iv1 E1].
      destruct (match st_bs s with [] => Some [] | _ => outs s ws end) as [new|] eqn:O; [|discriminate].
      apply IH; [apply close_inv, Iv1|reflexivity|]. cbn [close st_bs]. rewrite E1. intros w Iw bs1 b1 bs2 E N1.
      destruct bs2 as [|b2 bs2 _] using rev_ind.
      - apply app_inj_tail in E as [<- _]. destruct (st_bs s) as [|b0 bs0] eqn:Es; [contradiction|]. rewrite <- Es in *.
        destruct (outs_ok s ws new Iv O w Iw) as (out & S1 & S2). exists out. split; [exact S1|]. intros en Ie. apply in_or_app. left. apply S2, Ie.
      - rewrite app_comm_cons, app_assoc in E. apply app_inj_tail in E as [E _]. destruct (Li w Iw bs1 b1 bs2 E N1) as (out & S1 & S2).
        exists out. split; [exact S1|]. intros en Ie. apply in_or_app. right. apply S2, Ie.
    Qed.
    Definition start : st := mk_st [] [] [] [] [].
    Lemma start_inv : inv start.
    Proof. split; [apply nw_start|]. repeat split. Qed.

    (** the chain after a script: everything the nodes [ws] sent is recorded, all of it belongs to the election,
        and the next [n] blocks of the nodes [ns] can be read *)
    Definition scriptb (ws : list nat) (l : list (list item)) (check : st -> bool) : bool :=
      match script ws start [] l with
      | Some (s, sent) => match st_bs s with [] => false | _ => true end
                          && forallb (fun a => existsb (fun p => bytes_eqb (fst p) a) (st_new s)) sent
                          && forallb (fun x => arr_eqb (id_election (s_id x)) (id_election (el_id el))) (st_h s) && check s
      | None => false
      end.
    Definition drivenb (ns : list nat) (n : nat) (s : st) : bool :=
      forallb (forallb (fun o => match o with Some en => writtenb en | None => true end)) (driven true rnds (map secret ns) (at_last s) n).
    Lemma scriptb_ok ws l check : scriptb ws l check = true -> exists s, inv s /\ st_b s = [] /\ st_bs s <> [] /\ check s = true
      /\ st_h s = recorded_by true (st_bs s) /\ st_new s = st_old s
      /\ (forall w, In w ws -> delivered true el (secret w) (st_bs s) /\ dedicated true el (secret w) (st_bs s))
      /\ forall x, In x (recorded_by true (st_bs s)) -> inside el x.
    Proof.
      unfold scriptb. destruct (script ws start [] l) as [[s sent]|] eqn:E; [|discriminate]. intros B.
      apply andb_true_iff in B as [B Ch]. apply andb_true_iff in B as [B Al]. apply andb_true_iff in B as [B Se].
      destruct (script_ok ws l start [] s sent start_inv eq_refl) as (Iv & Eb & Li); [intros w _ bs1 b bs2 E0; destruct bs1; discriminate E0|exact E|].
      exists s. split; [exact Iv|]. split; [exact Eb|]. split; [destruct (st_bs s); [discriminate B|discriminate]|]. split; [exact Ch|].
      destruct Iv as (Nw & Eo & En & Eh). rewrite Eb in *.
      assert (Eh' : st_h s = recorded_by true (st_bs s)) by (rewrite Eh; unfold recorded_by; rewrite env_empty; reflexivity).
      assert (En' : st_new s = ledger_after true (st_bs s)) by (rewrite En; unfold ledger_after; rewrite env_empty; reflexivity).
      split; [exact Eh'|]. split; [rewrite En', Eo; reflexivity|].
      split; [|intros x Ix; rewrite <- Eh' in Ix; rewrite forallb_forall in Al; apply arr_eqb_eq, (Al x Ix)]. intros w Iw. split.
      - intros bs1 b bs2 Es N1. destruct (Li w Iw bs1 b bs2 Es N1) as (out & S1 & S2). exists out. split; [exact S1|]. intros y Iy _.
        rewrite forallb_forall in Se. pose proof (Se _ (S2 _ Iy)) as X. apply existsb_exists in X as ([a en] & Ia & Ea). apply bytes_eqb_eq in Ea. cbn [fst] in Ea. subst a.
        exists en. rewrite <- En'. exact Ia.
      - intros x el' Ix Tx Out. exfalso. rewrite <- Eh' in Ix. rewrite forallb_forall in Al. pose proof (Al x Ix) as X. apply arr_eqb_eq in X. exact (out_in el x Out X).
    Qed.
    Lemma drivenb_ok ns n s : inv s -> drivenb ns n s = true -> all_written (driven true rnds (map secret ns) (fold_left (commit true) (st_bs s) genesis) n).
    Proof.
      intros Iv B b en Ib Ie. rewrite (inv_node s Iv) in Ib. unfold drivenb in B. rewrite forallb_forall in B. specialize (B b Ib).
      rewrite forallb_forall in B. apply writtenb_ok, (B (Some en) Ie).
    Qed.
  End Script.
  Definition key_blocks (all : list item) (auth : nat) : list (list item) :=
    [[Start]; [Junk]; all; []; Junk :: all; []; all; []; [From auth]].
  (** two trustees without a mixnet, of whom only the second answers after voting has ended; *)
  Definition elN : ElectionTx := mk_election e3 (pkR x01) (map bare TM) x01 [] x00 None [ballot1] [contest0] no_props.
  Definition QN : people := [tt2 x0b x02].
  Definition scriptN : list (list item) :=
    key_blocks [From 1; From 0; From 1] 2 ++ [[Client (Cast x20 [(n32 0, yes, 4); (n32 1, no, 9)]); Junk]; [Client (Cast x21 [(n32 0, no, 2)]); Client Close]].
  (** and with one, where the first mixes and decrypts *)
  Definition scriptM : list (list item) :=
    key_blocks [From 0; From 1] 2 ++ [[Client (Cast x20 [(n32 0, yes, 4)]); Client (Cast x21 [(n32 0, no, 2)])]; []; [Client Close]].
  Definition doneb (el : ElectionTx) (w : nat) (s : st) : bool :=
    endedb el (st_h s) && castb el (st_h s) (ballots el (st_h s) (n32 0)) [(yes, 4); (no, 2)] && drivenb TM x01 [w] 16 s.
  Lemma scriptN_ok : scriptb elN TM [] x01 [1] scriptN (doneb elN 1) = true.
  Proof. vm_compute. reflexivity. Qed.
  Lemma scriptM_ok : scriptb elM TM [n32 0] x01 [0] scriptM (doneb elM 0) = true.
  Proof. vm_compute. reflexivity. Qed.
  Lemma keyM_ok : scriptb elM TM [n32 0] x01 [2; 0; 1] [[Start]; [Junk]] (fun s => existsb (fun x => arr_eqb (id_election (s_id x)) (id_election (el_id elM))) (st_h s) && drivenb TM x01 [2; 0; 1] 16 s) = true.
  Proof. vm_compute. reflexivity. Qed.
  Lemma set_upN : set_up elN TM [].
  Proof. destruct set_upM as [A B D E F _ _ _]. split; try assumption; [left; reflexivity|discriminate|constructor]. Qed.
  Lemma au_TM : forall p, In p TM -> tr_public_key (fst p) <> el_authority elM.
  Proof. intros p [<-|[<-|[]]] X; apply (f_equal (fun k => hd x00 (arr_l (sv k)))) in X; discriminate X. Qed.

  (** the hypotheses of the theorems above hold together *)
  Definition covers el T contests (p : Trustee * arr 32) : Prop :=
    laws toy_scheme e_encrypt el /\ set_up el T contests /\ sufficient el T [p]
    /\ exists bs k, network e_encrypt true el T contests bs [] /\ bs <> [] /\ ended el (recorded_by true bs)
       /\ delivered true el (snd p) bs /\ dedicated true el (snd p) bs
       /\ all_written (driven true rnds [snd p] (fold_left (commit true) bs genesis) 16)
       /\ at_id (recorded_by true bs) (slot0 (el_id el) TEncryptionKey) (XEncryptionKey k)
       /\ Forall2 (encrypted e_encrypt (ek_key k)) (ballots el (recorded_by true bs) (n32 0)) [yes; no].
  Lemma covers_ok el T contests w p l : el_authority el = @ed_public ToyE (key_of x01) -> (forall p, In p T -> tr_public_key (fst p) <> el_authority el) ->
    set_up el T contests -> secret T x01 w = snd p -> sufficient el T [p] ->
    scriptb el T contests x01 [w] l (fun s => endedb el (st_h s) && castb el (st_h s) (ballots el (st_h s) (n32 0)) [(yes, 4); (no, 2)] && drivenb T x01 [w] 16 s) = true ->
    covers el T contests p.
  Proof.
    intros Au Ap SU Sk Su B. apply scriptb_ok in B as (s & Iv & Eb & Nb & Ch & Eh & _ & De & _); [|exact Au|exact Ap].
    apply andb_true_iff in Ch as [Ch Dr]. apply andb_true_iff in Ch as [Ed Ca]. rewrite Eh in Ed, Ca.
    destruct (De w (or_introl eq_refl)) as [D1 D2]. rewrite Sk in D1, D2.
    apply (drivenb_ok el T contests x01 [w] 16 s Iv) in Dr. cbn [map] in Dr. rewrite Sk in Dr.
    destruct Iv as (Nw & _). rewrite Eb in Nw.
    split; [apply C70_laws|]. split; [exact SU|]. split; [exact Su|]. exists (st_bs s).
    destruct (recorded_key el (recorded_by true (st_bs s))) as [key|] eqn:Rk; [|unfold castb in Ca; rewrite Rk in Ca; discriminate Ca].
    destruct (recorded_at el _ key Rk) as (k & Ke & _). exists k. split; [exact Nw|]. split; [exact Nb|]. split; [|split; [exact D1|split; [exact D2|split; [exact Dr|split; [exact Ke|]]]]].
    - unfold endedb in Ed. apply existsb_exists in Ed as (x & Ix & Ex). apply id_eqb_eq in Ex. exists x. auto.
    - pose proof (net_honest toy_scheme e_encrypt true el T contests (C70_laws el) SU _ _ _ Nw Ke eq_refl) as Ho.
      exact (castb_ok el _ _ [(yes, 4); (no, 2)] k Ca eq_refl (C70_history toy_scheme e_encrypt true el T contests (C70_laws el) SU _ Ho) Ke).
  Qed.
  Example C78_plain_case : covers elN TM [] (tt2 x0b x02).
  Proof.
    apply (covers_ok elN TM [] 1 _ scriptN); [reflexivity|exact au_TM|exact set_upN|reflexivity| |exact scriptN_ok]. split.
    - intros p [<-|[]]. right. left. reflexivity.
    - constructor; [intros []|constructor].
    - vm_compute. discriminate.
    - intros X. destruct (X eq_refl).
  Qed.
  Example C78_mix_case : covers elM TM [n32 0] (tt2 x0a x01).
  Proof.
    apply (covers_ok elM TM [n32 0] 0 _ scriptM); [reflexivity|exact au_TM|exact set_upM|reflexivity| |exact scriptM_ok]. split.
    - intros p [<-|[]]. left. reflexivity.
    - constructor; [intros []|constructor].
    - vm_compute. discriminate.
    - intros _. eexists. split; [left; reflexivity|reflexivity].
  Qed.
  (** so the nodes publish both votes, in either election *)
  Example C78_published_case el T contests p : covers el T contests p ->
    exists bs, network e_encrypt true el T contests bs [] /\ settled true el bs /\ delivered true el (snd p) bs
      /\ Permutation (map dc_vote (decryptions_of el (recorded_by true bs) (n32 0))) [yes; no].
  Proof.
    intros (L & SU & Su & bs & k & Nw & Nb & Ed & De & Dd & Wr & Ke & F). eexists.
    assert (Nn : forall sk, In sk [snd p] -> node el T sk) by (intros sk [<-|[]]; left; exists p; split; [apply (sf_trustees _ _ _ Su); left; reflexivity|reflexivity]).
    destruct (driven_on toy_scheme e_encrypt true el T contests L SU rnds bs [snd p] 16 Nw Nb Nn) as (Nw' & Ro & Ln); [intros sk [<-|[]]; auto|exact Wr|].
    split; [exact Nw'|]. pose proof L as [DH Op Sc Si En Sh Ve Re]. split; [|split].
    - apply (rounds_settle toy_scheme DH Op Sc e_encrypt true el T contests SU Ve _ bs Nn _ Ro Nw' Nb). rewrite Ln. apply le_n.
    - exact (rounds_deliver toy_scheme DH Op Sc Si e_encrypt true el T contests SU Ve _ bs Nn _ Ro Nw' Nb _ (or_introl eq_refl) De).
    - apply (C78_finished toy_scheme e_encrypt true el T contests L SU rnds bs [p] k 16 Nw Nb Ed Su); [intros q [<-|[]]; auto|apply le_n|exact Wr|exact Ke|exact F].
  Qed.
  (** the key of the second is made in the sixteen blocks after the election was recorded *)
  Example C78_key_case : exists bs k, network e_encrypt true elM TM [n32 0] bs [] /\ bs <> [] /\ at_id (recorded_by true bs) (el_id elM) (XElection elM)
    /\ let new := driven true rnds (key_of x01 :: map snd TM) (fold_left (commit true) bs genesis) 16 in
       all_written new /\ at_id (recorded_by true (bs ++ new)) (slot0 (el_id elM) TEncryptionKey) (XEncryptionKey k).
  Proof.
    destruct (scriptb_ok elM TM [n32 0] x01 eq_refl au_TM _ _ _ keyM_ok) as (s & Iv & Eb & Nb & Ch & Eh & _ & De & _).
    apply andb_true_iff in Ch as [Ch Dr]. apply (drivenb_ok elM TM [n32 0] x01 _ 16 s Iv) in Dr. pose proof Iv as (Nw & _). rewrite Eb in Nw.
    apply existsb_exists in Ch as (x & Ix & Ex). apply arr_eqb_eq in Ex. rewrite Eh in Ix.
    assert (Ho : SpecRun.honest e_encrypt true elM TM [n32 0] (recorded_by true (st_bs s))).
    { apply (net_honest toy_scheme e_encrypt true elM TM [n32 0] (C70_laws elM) set_upM _ (s_id x) (s_tx x) Nw); [exists x; auto|exact Ex]. }
    destruct (has_election _ _ _ _ _ _ Ho) as (y & Iy & Ty).
    assert (Es : at_id (recorded_by true (st_bs s)) (el_id elM) (XElection elM)) by (exists y; split; [exact Iy|]; unfold s_id; rewrite Ty; auto).
    assert (Nd : node elM TM (key_of x01)) by (apply (node_of elM TM x01 eq_refl au_TM 2)).
    destruct (C78_key_made toy_scheme e_encrypt true elM TM [n32 0] (C70_laws elM) set_upM rnds (st_bs s) (key_of x01) 16 Nw Nb Es Nd eq_refl) as (_ & k & Ke & _).
    - intros sk I. assert (X : exists w, In w [2; 0; 1] /\ sk = secret TM x01 w).
      { destruct I as [<-|[<-|[<-|[]]]]; [exists 2|exists 0|exists 1]; (split; [cbn [In]; tauto|reflexivity]). }
      destruct X as (w & Iw & ->). exact (De w Iw).
    - apply le_n.
    - exact Dr.
    - exists (st_bs s), k. split; [exact Nw|]. split; [exact Nb|]. split; [exact Es|]. split; [exact Dr|exact Ke].
  Qed.
  (** and the command prints the count of both votes *)
  Lemma countM_ok : scriptb elM TM [n32 0] x01 [0] (scriptM ++ repeat [From 0] 8) (fun s => endedb elM (st_h s)
    && castb elM (st_h s) (entries elM (st_h s)) [(yes, 4); (no, 2)] && match rev (st_bs s) with [] :: [] :: _ => true | _ => false end) = true.
  Proof. vm_compute. reflexivity. Qed.
  Lemma selects_all el h : (forall x, In x h -> inside el x) -> selects el (shares_prefix (el_id el)) h.
  Proof.
    intros Al. split; [|intros x Ix _; exact (Al x Ix)].
    rewrite <- prefix_of_election. apply starts_with_spec. exists (skipn 15 (id_to_string (el_id el))). symmetry. apply firstn_skipn.
  Qed.
  Example C78_command_case : exists bs (s : rstring) k, network e_encrypt true elM TM [n32 0] bs [] /\ settled true elM bs /\ ended elM (recorded_by true bs)
    /\ sufficient elM TM QM /\ (forall p, In p QM -> delivered true elM (snd p) bs)
    /\ at_id (recorded_by true bs) (slot0 (el_id elM) TEncryptionKey) (XEncryptionKey k)
    /\ Forall2 (encrypted e_encrypt (ek_key k)) (entries elM (recorded_by true bs)) [yes; no]
    /\ sv s = id_to_string (el_id elM) /\ selects elM (shares_prefix (el_id elM)) (recorded_by true bs)
    /\ exists m t, command_e2e true (ledger_after true bs) s = Ok m /\ e2e_tally straight (ms_store m) (el_id elM) = Ok t /\ counts [yes; no] t.
  Proof.
    destruct (scriptb_ok elM TM [n32 0] x01 eq_refl au_TM _ _ _ countM_ok) as (s & Iv & Eb & Nb & Ch & Eh & _ & De & Al).
    apply andb_true_iff in Ch as [Ch Qt]. apply andb_true_iff in Ch as [Ed Ca]. rewrite Eh in Ed, Ca. destruct Iv as (Nw & _). rewrite Eb in Nw.
    assert (Se : settled true elM (st_bs s)).
    { destruct (rev (st_bs s)) as [|[|] [|[|] bs]] eqn:Er; try discriminate Qt. apply (f_equal (@rev _)) in Er. rewrite rev_involutive in Er. rewrite Er.
      cbn [rev]. intros x Ix _. rewrite !removelast_last. unfold recorded_by in *. rewrite !env_empty in Ix. exact Ix. }
    destruct (recorded_key elM (recorded_by true (st_bs s))) as [key|] eqn:Rk; [|unfold castb in Ca; rewrite Rk in Ca; discriminate Ca].
    destruct (recorded_at elM _ key Rk) as (k & Ke & _).
    pose proof (net_honest toy_scheme e_encrypt true elM TM [n32 0] (C70_laws elM) set_upM _ _ _ Nw Ke eq_refl) as Ho.
    pose proof (castb_ok elM _ _ [(yes, 4); (no, 2)] k Ca eq_refl (C70_history toy_scheme e_encrypt true elM TM [n32 0] (C70_laws elM) set_upM _ Ho) Ke) as F.
    assert (En : ended elM (recorded_by true (st_bs s))) by (unfold endedb in Ed; apply existsb_exists in Ed as (x & Ix & Ex); apply id_eqb_eq in Ex; exists x; auto).
    assert (Su : sufficient elM TM QM) by apply C78_mix_case.
    assert (De' : forall p, In p QM -> delivered true elM (snd p) (st_bs s)) by (intros p [<-|[]]; exact (proj1 (De 0 (or_introl eq_refl)))).
    exists (st_bs s), (mk_sub (id_to_string (el_id elM)) (norm_true (hex_utf8 (id_to_bytes (el_id elM))))), k.
    repeat (split; [assumption|]). split; [reflexivity|]. split; [apply selects_all, Al|].
    apply (C78_command toy_scheme e_encrypt true elM TM [n32 0] (C70_laws elM) set_upM (st_bs s) _ QM k); try assumption;
      [reflexivity|apply selects_all, Al|exact straight_fair|repeat constructor; discriminate].
  Qed.
  (** an answer in the block that is being filled, for C77 *)
  Lemma answerM_ok : scriptb elM TM [n32 0] x01 [0] [[Start]; [Junk]] (fun s => match hook TM x01 s 0 with Ok (en :: _) => writtenb en && match stx_from_bytes (en_data en) with Ok y => arr_eqb (id_election (s_id y)) (id_election (el_id elM)) | _ => false end | _ => false end) = true.
  Proof. vm_compute. reflexivity. Qed.
  Example C77_recorded_case : exists bs sk out y, network e_encrypt true elM TM [n32 0] bs [Some (into_env y)] /\ bs <> [] /\ node elM TM sk
    /\ dedicated true elM sk bs /\ sends true sk bs out /\ In (into_env y) out /\ written (into_env y) /\ inside elM y.
  Proof.
    destruct (scriptb_ok elM TM [n32 0] x01 eq_refl au_TM _ _ _ answerM_ok) as (s & Iv & Eb & Nb & Ch & Eh & _ & De & Al).
    destruct (hook TM x01 s 0) as [[|en out]|?|?] eqn:H; try discriminate Ch. apply andb_true_iff in Ch as [Ch Ei]. apply writtenb_ok in Ch.
    assert (Nd : node elM TM (secret TM x01 0)) by apply (node_of elM TM x01 eq_refl au_TM 0).
    assert (Sd : sends true (secret TM x01 0) (st_bs s) (en :: out)) by (exists rnds; rewrite (inv_node elM TM [n32 0] s Iv); exact H).
    destruct Iv as (Nw & _). rewrite Eb in Nw. pose proof (C70_laws elM) as [DH Op Sc Si En Sh Ve Re].
    destruct (net_chain toy_scheme DH Op Sc e_encrypt true elM TM [n32 0] set_upM Ve _ Nw) as (F1 & _ & _ & Hh & _).
    destruct (sends_inv true _ _ _ en Nb F1 Sd (or_introl eq_refl)) as (r & en0 & x & l & y & _ & _ & Ix & G & Iy & -> & _).
    pose proof (env_carries y (written_small _ y Ch eq_refl)) as Cy. unfold carries in Cy. rewrite Cy in Ei. apply arr_eqb_eq in Ei. rewrite norm_s_id in Ei.
    exists (st_bs s), (secret TM x01 0), (into_env y :: out), y. split; [|repeat (split; [assumption|])].
    - apply (filled e_encrypt true elM TM [n32 0] (st_bs s) [into_env y]); [exact Nw| |exact Nb]. intros en [<-|[]]. exists (secret TM x01 0), (into_env y :: out).
      split; [exact Nd|]. split; [exact Sd|]. split; [left; reflexivity|exact Ch].
    - split; [apply (De 0 (or_introl eq_refl))|]. split; [exact Sd|]. split; [left; reflexivity|]. split; [exact Ch|exact Ei].
  Qed.
  (** so an election whose first answers were lost never gets a key, however long its nodes run *)
  Lemma lostM_ok : scriptb elM TM [n32 0] x01 [] [[Start]; []; []] (fun s => existsb (fun x => arr_eqb (id_election (s_id x)) (id_election (el_id elM))) (st_h s)
    && negb (existsb (fun x => id_eqb (s_id x) (slot0 (el_id elM) TEncryptionKey)) (st_h s)) && match st_bs s with [_; []; []] => true | _ => false end) = true.
  Proof. vm_compute. reflexivity. Qed.
  Lemma silent_rec dbg bs n : @recorded_by ToyE dbg (bs ++ repeat [] n) = recorded_by dbg bs.
  Proof.
    unfold recorded_by. f_equal. rewrite env_app. assert (E : envelopes (repeat [] n) = []) by (induction n as [|n IH]; [reflexivity|exact IH]).
    rewrite E, app_nil_r. reflexivity.
  Qed.
  Theorem C79_resumes_refuted : exists bs, laws toy_scheme e_encrypt elM /\ set_up elM TM [n32 0] /\ network e_encrypt true elM TM [n32 0] bs []
    /\ at_id (recorded_by true bs) (el_id elM) (XElection elM)
    /\ forall r ns n k, ~ at_id (recorded_by true (bs ++ driven true r ns (fold_left (commit true) bs genesis) n)) (slot0 (el_id elM) TEncryptionKey) (XEncryptionKey k).
  Proof.
    destruct (scriptb_ok elM TM [n32 0] x01 eq_refl au_TM _ _ _ lostM_ok) as (s & Iv & Eb & Nb & Ch & Eh & _ & _ & _).
    apply andb_true_iff in Ch as [Ch Sh]. apply andb_true_iff in Ch as [Ch Nk]. pose proof Iv as (Nw & _). rewrite Eb in Nw. rewrite Eh in Nk.
    apply existsb_exists in Ch as (x & Ix & Ex). apply arr_eqb_eq in Ex. rewrite Eh in Ix. exists (st_bs s).
    assert (Ho : SpecRun.honest e_encrypt true elM TM [n32 0] (recorded_by true (st_bs s))).
    { apply (net_honest toy_scheme e_encrypt true elM TM [n32 0] (C70_laws elM) set_upM _ (s_id x) (s_tx x) Nw); [exists x; auto|exact Ex]. }
    destruct (has_election _ _ _ _ _ _ Ho) as (y & Iy & Ty).
    split; [apply C70_laws|]. split; [exact set_upM|]. split; [exact Nw|]. split; [exists y; split; [exact Iy|]; unfold s_id; rewrite Ty; auto|].
    intros r ns n k (z & Iz & Ez & _). destruct (st_bs s) as [|b0 [|[|] [|[|] [|]]]]; try discriminate Sh.
    pose proof (C79_silence true r ns n [b0] [] [] (fun o (H : In o []) => match H with end) (fun o (H : In o []) => match H with end)) as E.
    cbn [app] in E. rewrite E, silent_rec in Iz. apply negb_true_iff in Nk.
    assert (X : existsb (fun x => id_eqb (s_id x) (slot0 (el_id elM) TEncryptionKey)) (recorded_by true [b0; []; []]) = true); [|congruence].
    apply existsb_exists. exists z. split; [exact Iz|]. apply id_eqb_eq, Ez.
  Qed.
End Case.

Print Assumptions C77_history.
Print Assumptions C77_recorded.
Print Assumptions C77_no_crash.
Print Assumptions C78_key.
Print Assumptions C78_published.
Print Assumptions C78_command.
Print Assumptions C78_rounds.
Print Assumptions C78_key_made.
Print Assumptions C78_finished.
Print Assumptions C79_silence.
Print Assumptions C79_resumes_refuted.
