(** * C92: debug and release builds. *)
From Verif Require Import Base BaseFacts Hex Utf8 Cbor Ident BuildId IdentFacts Crypto Types Serde Store SpecStore StoreFacts Prost Validate ValidateFacts SpecHist HistFacts
  SpecValid ValidFacts ValidFacts2 ValidFacts3 Exonum SpecLedger LedgerFacts Api Audit AuditFacts Encrypt Cli SpecCli SpecSerde SerdeFacts TransportFacts CliFacts OutcomeFacts Trustee Tasks Service SpecBuilds Toy ToyT Scene.
From Coq Require Import Permutation ZifyBool ZifyNat ZifyN.
Open Scope list_scope.

(** ** Overflow, piece by piece *)
Lemma sos_refl {E A} (m : res E A) : same_or_stops m m.
Proof. left. reflexivity. Qed.
Lemma sos_bind {E A B} (m m' : res E A) (f g : A -> res E B) :
  same_or_stops m m' -> (forall a, same_or_stops (f a) (g a)) -> same_or_stops (bind m f) (bind m' g).
Proof. intros [->| ->] H; [|right; reflexivity]. destruct m' as [a| |]; cbn [bind]; [apply H|left; reflexivity..]. Qed.
Lemma sos_add {E} a b : same_or_stops (@u8_add E true a b) (u8_add false a b).
Proof. unfold u8_add. destruct (_ <? _)%N; [left|right]; reflexivity. Qed.
Lemma sos_sub {E} a b : same_or_stops (@u8_sub E true a b) (u8_sub false a b).
Proof. unfold u8_sub. destruct (_ <=? _)%N; [left|right]; reflexivity. Qed.
Lemma sos_err {E F A} (f : E -> F) (a b : res E A) : same_or_stops a b -> same_or_stops (map_err f a) (map_err f b).
Proof. intros [->| ->]; [left|right]; reflexivity. Qed.
Lemma same_bind {E A B} (m m' : res E A) (f g : A -> res E B) : m = m' -> (forall a, m' = Ok a -> f a = g a) -> bind m f = bind m' g.
Proof. intros -> H. destruct m' as [a| |]; cbn [bind]; [apply H|..]; reflexivity. Qed.
Lemma add_fits {E} a b : (u8v a + u8v b < 256)%N -> @u8_add E true a b = u8_add false a b.
Proof. intros H. unfold u8_add. apply N.ltb_lt in H. rewrite H. reflexivity. Qed.
Lemma sub_fits {E} a : a <> x00 -> @u8_sub E true a x01 = u8_sub false a x01.
Proof. intros H. rewrite !u8_sub_1 by exact H. reflexivity. Qed.
Lemma ff_is a : u8v a = 255%N -> a = xff.
Proof. intros H. apply u8v_inj. rewrite H. reflexivity. Qed.
Lemma zero_is a : u8v a = 0%N -> a = x00.
Proof. intros H. apply u8v_inj. rewrite H. reflexivity. Qed.

Section Builds.
  Context {C : Crypto}.

  Lemma sos_mix s t : same_or_stops (validate_mix true s t) (validate_mix false s t).
  Proof.
    unfold validate_mix. do 4 (apply sos_bind; [apply sos_refl|intros ?]). apply sos_bind; [apply sos_sub|intros pred].
    do 2 (apply sos_bind; [apply sos_refl|intros ?]). apply sos_bind; [|intros ins; apply sos_refl].
    unfold mix_input. destruct (mx_prev t) as [p|]; [|apply sos_refl]. unfold mix_input_prev.
    do 3 (apply sos_bind; [apply sos_refl|intros ?]). apply sos_bind; [apply sos_add|intros ?; apply sos_refl].
  Qed.
  (** every verdict of the checked build is that of the other, or an overflow *)
  Theorem C92_same_or_stops : forall s x, same_or_stops (validate true s x) (validate false s x).
  Proof.
    intros s x. unfold validate. do 2 (apply sos_bind; [apply sos_refl|intros ?]). unfold validate_tx.
    destruct (s_tx x); try apply sos_refl. apply sos_mix.
  Qed.
  Corollary C92_accepted_by_both : forall s x, validate true s x = Ok tt -> validate false s x = Ok tt.
  Proof. intros s x V. destruct (C92_same_or_stops s x) as [E|E]; congruence. Qed.

  Lemma election_from s i el : election_of s i = Ok el -> exists y, st_get s i = Ok (Some y) /\ s_tx y = XElection el.
  Proof.
    unfold election_of, q, get_election, get_typed. destruct (st_get s i) as [[y|]|e|p]; cbn [lift bind map_err]; try discriminate; [|destruct e].
    destruct (s_tx y) eqn:T; cbn [as_election map_err bind fst]; try discriminate. intros E. injection E as <-. exists y. auto.
  Qed.
  Lemma listed_trustee el i k : trustee_exists el i k = true -> exists tr, In tr (el_trustees el) /\ tr_index tr = i.
  Proof.
    intros H. apply existsb_exists in H as (tr & I & H). apply andb_prop in H as [H _]. apply Byte.byte_dec_bl in H. exists tr. auto.
  Qed.
  Lemma fail_ok {E} b (e : E) u : fail_if b e = Ok u -> b = false.
  Proof. destruct b; [discriminate|reflexivity]. Qed.

  (** what is read from the store: elections numbered from 1 to [n], mixes below [n] *)
  Definition below (n : N) (x : STx) : Prop := numbered n x /\ forall m, s_tx x = XMix m -> (u8v (mx_index m) < n)%N.
  Definition reads_below (n : N) (s : Store) : Prop := forall i y, st_get s i = Ok (Some y) -> below n y.

  Lemma same_mix n s t : (n <= 255)%N -> reads_below n s -> validate_mix true s t = validate_mix false s t.
  Proof.
    intros Hn R. unfold validate_mix. apply same_bind; [reflexivity|intros _ _]. apply same_bind; [reflexivity|intros el El].
    apply same_bind; [reflexivity|intros _ _]. apply same_bind; [reflexivity|intros ? Tr]. apply fail_ok, negb_false_iff in Tr.
    apply listed_trustee in Tr as (tr & I & Ei). apply election_from in El as (y & G & T). pose proof (proj1 (R _ _ G) el tr T I) as B. rewrite Ei in B.
    apply same_bind; [apply sub_fits; intros Z; rewrite Z in B; change (u8v x00) with 0%N in B; lia|intros pred _].
    do 2 (apply same_bind; [reflexivity|intros _ _]). apply same_bind; [|reflexivity].
    unfold mix_input. destruct (mx_prev t) as [p|]; [|reflexivity]. unfold mix_input_prev.
    apply same_bind; [reflexivity|intros o O]. apply same_bind; [reflexivity|intros x X]. apply same_bind; [reflexivity|intros pm P].
    apply same_bind; [|reflexivity]. apply add_fits. change (u8v x01) with 1%N.
    assert (L : (u8v (mx_index pm) < n)%N); [|lia]. destruct o as [x'|]; [|discriminate X]. injection X as ->.
    destruct (st_get s p) as [o|er|k] eqn:Gp; cbn [lift] in O; [injection O as ->|destruct er|discriminate].
    apply (proj2 (R _ _ Gp)). unfold into_typed in P. destruct (s_tx x); try discriminate P. injection P as <-. reflexivity.
  Qed.
  Lemma same_verdict n s x : (n <= 255)%N -> reads_below n s -> validate true s x = validate false s x.
  Proof.
    intros Hn R. unfold validate. do 2 (apply same_bind; [reflexivity|intros _ _]). unfold validate_tx.
    destruct (s_tx x); try reflexivity. apply (same_mix n); assumption.
  Qed.
  (** what is accepted is again of this kind *)
  Lemma accepted_below n s x : (n <= 255)%N -> reads_below n s -> numbered n x -> validate false s x = Ok tt -> below n x.
  Proof.
    intros Hn R N V. split; [exact N|]. intros m T. apply validate_ok in V as (_ & _ & V). rewrite T in V. cbn [validate_tx] in V. unfold validate_mix in V.
    apply bind_ok in V as (? & _ & V). apply bind_ok in V as (el & El & V). apply bind_ok in V as (? & _ & V). apply bind_ok in V as (? & Tr & V).
    apply fail_ok, negb_false_iff in Tr. apply listed_trustee in Tr as (tr & I & Ei). apply election_from in El as (y & G & Ty). pose proof (proj1 (R _ _ G) el tr Ty I) as B. rewrite Ei in B.
    apply bind_ok in V as (pred & Sb & V). rewrite u8_sub_1 in Sb by (intros Z; rewrite Z in B; change (u8v x00) with 0%N in B; lia). injection Sb as <-.
    apply bind_ok in V as (? & Eq & _). apply fail_ok, negb_false_iff in Eq. apply Byte.byte_dec_bl in Eq. rewrite Eq, u8v_u8_of.
    pose proof (u8v_lt (mx_trustee m)). rewrite N.mod_small by lia. lia.
  Qed.

  (** the only causes *)
  Theorem C92_causes : forall s x, validate true s x = Panic POverflow -> validate false s x <> Panic POverflow ->
    exists m, s_tx x = XMix m /\ past_the_end (fun i => match st_get s i with Ok o => o | _ => None end) m.
  Proof.
    intros s x V N. assert (D : validate true s x <> validate false s x) by congruence. clear V N.
    unfold validate in D. destruct (fail_if _ _); cbn [bind] in D; try congruence. destruct (verify_signature x); cbn [bind] in D; try congruence.
    unfold validate_tx in D. destruct (s_tx x) as [t|t|t|t|t|t|t|t|t|t]; try congruence. exists t. split; [reflexivity|]. unfold past_the_end.
    destruct (Byte.eqb (mx_trustee t) x00) eqn:Z; [left; apply Byte.byte_dec_bl, Z|right].
    destruct (mx_prev t) as [p|] eqn:P.
    2: { exfalso. apply D. unfold validate_mix, mix_input. rewrite P, sub_fits; [reflexivity|]. intros E. rewrite E in Z. discriminate Z. }
    destruct (st_get s p) as [[y|]|er|k] eqn:G; [| |destruct er|].
    2, 3: exfalso; apply D; unfold validate_mix, mix_input, mix_input_prev; rewrite P, G, sub_fits; [reflexivity|]; intros E; rewrite E in Z; discriminate Z.
    destruct (s_tx y) as [pm|pm|pm|pm|pm|pm|pm|pm|pm|pm] eqn:T;
      try (exfalso; apply D; unfold validate_mix, mix_input, mix_input_prev, into_typed; rewrite P, G; cbn [lift bind ok_or]; rewrite T, sub_fits; [reflexivity|]; intros E; rewrite E in Z; discriminate Z).
    exists p, y, pm. split; [reflexivity|]. rewrite G. split; [reflexivity|]. split; [exact T|].
    destruct (N.eq_dec (u8v (mx_index pm)) 255) as [E|E]; [apply ff_is, E|exfalso; apply D].
    unfold validate_mix, mix_input, mix_input_prev, into_typed. rewrite P, G. cbn [lift bind ok_or]. rewrite T. cbn [as_mix or_panic bind].
    rewrite sub_fits by (intros F; rewrite F in Z; discriminate Z). rewrite add_fits; [reflexivity|]. change (u8v x01) with 1%N. pose proof (u8v_lt (mx_index pm)). lia.
  Qed.

  (** ** Ledgers *)
  Definition all_below (n : N) (L : Ledger) : Prop := forall k e x, In (k, e) L -> carries e x -> below n x.
  Lemma reads_ledger n L : lwf L -> all_below n L -> reads_below n (ex_store L).
  Proof.
    intros W A i y G. change (ex_get L i = Ok (Some y)) in G. destruct (bt_get L (id_to_string i)) as [e|] eqn:B.
    - apply (bt_get_in _ _ _ (lw_sorted _ W)) in B. destruct (lw_entry _ W _ _ B) as (_ & x & D).
      rewrite (ex_get_some L i e x W B D) in G. injection G as <-. exact (A _ e x B D).
    - unfold ex_get in G. rewrite B in G. discriminate G.
  Qed.
  Definition numbered_env (n : N) (e : Env) : Prop := forall x, carries e x -> numbered n x.
  Lemma submit_same n L e : (n <= 255)%N -> lwf L -> all_below n L -> numbered_env n e ->
    submit true L e = submit false L e /\ all_below n (submit false L e).
  Proof.
    intros Hn W A N. assert (E : submit true L e = submit false L e).
    { unfold submit, verify_and_store. destruct (fail_if _ _); cbn [bind]; [|reflexivity..].
      destruct (stx_from_bytes (en_data e)) as [x| |]; cbn [bind map_err]; [|reflexivity..]. rewrite (same_verdict n _ _ Hn (reads_ledger n L W A)). reflexivity. }
    split; [exact E|]. unfold submit. destruct (verify_and_store false L e) as [L'| |] eqn:V; [|exact A..].
    apply store_ok in V as (_ & (x & Cx & Vx) & ->). intros k e' y I Cy. apply bt_insert_in in I as [I|I]; [|exact (A _ _ _ I Cy)].
    injection I as -> ->. assert (y = x) by (unfold carries in Cx, Cy; rewrite Cx in Cy; injection Cy as ->; reflexivity). subst y. exact (accepted_below n _ x Hn (reads_ledger n L W A) (N x Cx) Vx).
  Qed.
  Lemma run_same n envs : (n <= 255)%N -> Forall (numbered_env n) envs -> forall L, lwf L -> all_below n L ->
    run true L envs = run false L envs /\ all_below n (run false L envs).
  Proof.
    intros Hn F. induction F as [|e envs N F IH]; intros L W A; [split; [reflexivity|exact A]|]. unfold run in *. cbn [fold_left].
    destruct (submit_same n L e Hn W A N) as [-> A']. apply IH; [apply lwf_submit, W|exact A'].
  Qed.
  (** all nodes, however built, have the same ledger when trustees are numbered from 1 *)
  Theorem C92_same_ledger_partial : forall envs, Forall (numbered_env 255) envs -> run true [] envs = run false [] envs.
  Proof. intros envs F. apply (run_same 255 envs); [lia|exact F|apply lwf_empty|intros ? ? ? []]. Qed.

  (** ** Audits *)
  Lemma audit_same n l : (n <= 255)%N -> Forall (numbered n) l -> forall m, (forall i y, ms_get m i = Some y -> below n y) ->
    audit_from true m l = audit_from false m l.
  Proof.
    intros Hn F. induction F as [|x l N F IH]; intros m R; [reflexivity|]. cbn [audit_from].
    assert (R' : reads_below n (ms_store m)) by (intros i y G; cbn [ms_store st_get] in G; injection G as G; exact (R i y G)).
    rewrite (same_verdict n _ _ Hn R'). destruct (validate false (ms_store m) x) as [[]| |] eqn:V; cbn [map_err bind]; [|reflexivity..].
    apply IH. intros i y. rewrite ms_get_set. destruct (id_eqb (s_id x) i); [|apply R]. intros E. injection E as <-. exact (accepted_below n _ x Hn R' N V).
  Qed.
  Theorem C92_same_audit_partial : forall txs, Forall (numbered 255) txs -> audit true txs = audit false txs.
  Proof.
    intros txs F. destruct txs as [|x l]; [reflexivity|]. unfold audit. destruct (fail_if _ _); cbn [bind]; [|reflexivity..].
    apply (audit_same 255); [lia|exact F|]. intros i y G. discriminate G.
  Qed.
End Builds.

(** ** Nodes *)
Section Nodes.
  Context {C : Crypto} {TC : TCrypto}.
  Variables (sk : ed_secret) (r : nat -> Rnd).
  Theorem C92_answers_same_or_stop : forall rn s x, same_or_stops (generate_transactions true sk rn s x) (generate_transactions false sk rn s x).
  Proof.
    intros rn s x. unfold generate_transactions. destruct (s_tx x); try apply sos_refl. unfold process_mix. apply sos_bind; [apply sos_refl|intros el].
    destruct (trustee_from_election el (node_key sk)); [|apply sos_refl]. destruct (el_mix_config el); [|apply sos_refl].
    apply sos_bind; [apply sos_add|intros nx]. destruct (Byte.eqb _ _); [apply sos_refl|]. apply sos_bind; [apply sos_add|intros tn; apply sos_refl].
  Qed.
  Lemma answers_same rn s x : below 254 x -> generate_transactions true sk rn s x = generate_transactions false sk rn s x.
  Proof.
    intros [_ B]. unfold generate_transactions. destruct (s_tx x) as [t|t|t|t|t|t|t|t|t|t] eqn:T; try reflexivity. specialize (B t eq_refl). unfold process_mix.
    apply same_bind; [reflexivity|intros el _]. destruct (trustee_from_election el (node_key sk)); [|reflexivity]. destruct (el_mix_config el); [|reflexivity].
    apply same_bind; [apply add_fits; change (u8v x01) with 1%N; lia|intros nx _]. destruct (Byte.eqb _ _); [reflexivity|].
    apply same_bind; [apply add_fits; change (u8v x02) with 2%N; lia|reflexivity].
  Qed.
  Lemma follow_same L n b : lwf L -> all_below 254 L -> follow_block true sk r n L b = follow_block false sk r n L b.
  Proof.
    intros W A. revert n. induction b as [|o b IH]; intros n; [reflexivity|]. cbn [follow_block]. apply same_bind; [|intros sent _; apply same_bind; [apply IH|reflexivity]].
    unfold follow_up. destruct o as [e|]; [|reflexivity]. destruct (id_from_str _) as [i| |]; [|reflexivity..].
    apply same_bind; [reflexivity|intros o Ho]. destruct o as [x|]; [|reflexivity].
    rewrite (answers_same (r n) (ex_store L) x); [reflexivity|]. exact (reads_ledger 254 L W A i x Ho).
  Qed.
  Lemma run_node_same bs : Forall (fun b => Forall (numbered_env 254) (payloads b)) bs -> forall nd, lwf (nd_ledger nd) -> all_below 254 (nd_ledger nd) ->
    run_node true sk r nd bs = run_node false sk r nd bs.
  Proof.
    intros F. induction F as [|b bs N F IH]; intros nd W A; [reflexivity|]. cbn [run_node].
    destruct (run_same 254 (payloads b) ltac:(lia) N (nd_ledger nd) W A) as [E A'].
    assert (Ec : commit true nd b = commit false nd b) by (unfold commit, execute; rewrite E; reflexivity). rewrite Ec.
    assert (W' : lwf (nd_ledger (commit false nd b))).
    { cbn [commit nd_ledger]. unfold execute, run. clear -W. revert W. generalize (nd_ledger nd). induction (payloads b) as [|e l IH]; intros L W; [exact W|]. cbn [fold_left]. apply IH, lwf_submit, W. }
    assert (Ea : after_commit true sk r (commit false nd b) = after_commit false sk r (commit false nd b)).
    { unfold after_commit. destruct (List.length _) as [|[|h]]; [reflexivity..|]. apply follow_same; [exact W'|exact A']. }
    rewrite Ea. destruct (after_commit false sk r (commit false nd b)) as [sent| |]; [|reflexivity..].
    rewrite (IH (commit false nd b) W' A'). reflexivity.
  Qed.
  (** a node records and sends the same, however it was built, if trustees are numbered from 1 to 254 at most *)
  Theorem C92_same_node_partial : forall bs, Forall (fun b => Forall (numbered_env 254) (payloads b)) bs ->
    run_node true sk r genesis bs = run_node false sk r genesis bs.
  Proof. intros bs F. apply run_node_same; [exact F|apply lwf_empty|intros ? ? ? []]. Qed.
End Nodes.

(** ** Posting a history *)
Section Post.
  Context {C : Crypto}.
  Definition plainly (x : STx) : Prop := transportable x /\ norm_stx x = x.
  Lemma post_one dbg L h x : lwf L -> honest_ledger L -> decoded L = stored h -> history dbg h -> plainly x -> fresh h (s_id x) ->
    (exists L', verify_and_store dbg L (into_env x) = Ok L') <-> validate dbg (ms_store (ms_from h)) x = Ok tt.
  Proof.
    intros W HL D Hh [T N] F. assert (V : validate dbg (ex_store L) (norm_stx x) = validate dbg (ms_store (ms_from h)) x).
    { rewrite N. apply validate_same, (holds_same _ _ (stored h)); [rewrite <- D; apply honest_holds; assumption|apply stored_holds]. }
    split.
    - intros (L' & P). apply (post_ok dbg L x L' T) in P as (_ & P & _). congruence.
    - intros P. eexists. apply (post_ok dbg L x _ T). split; [|split; [congruence|reflexivity]].
      apply free_slot; [exact W|exact HL|]. rewrite D. intros (y & I & E). apply (hist_stored dbg _ _ Hh) in I. exact (F y I E).
  Qed.
  Lemma post_history dbg h : history dbg h -> Forall plainly h ->
    let L := run dbg [] (map into_env h) in lwf L /\ honest_ledger L /\ decoded L = stored h.
  Proof.
    induction 1 as [|h x Hh IH F V]; intros P; [split; [apply lwf_empty|]; split; [intros ? ? []|reflexivity]|].
    apply Forall_app in P as [P Px]. inversion Px as [|? ? Qx _]; subst. destruct (IH P) as (W & HL & D). rewrite map_app. cbn [map]. unfold run in *. rewrite fold_left_app.
    cbn [fold_left]. set (L := fold_left (submit dbg) (map into_env h) []) in *. cbv zeta.
    destruct (proj2 (post_one dbg L h x W HL D Hh Qx F) V) as (L' & E). assert (Es : submit dbg L (into_env x) = L') by (unfold submit; rewrite E; reflexivity). rewrite Es. pose proof (env_carries x (proj1 Qx)) as Cx. rewrite (proj2 Qx) in Cx.
    destruct (honest_step dbg L _ x L' h W HL (env_honest x (proj1 Qx)) Cx E D Hh) as (_ & HL' & D'). split; [exact (lwf_store _ _ _ _ W E)|split; [exact HL'|exact D']].
  Qed.
  Lemma posted_numbered n l : Forall plainly l -> Forall (numbered n) l -> Forall (numbered_env n) (map into_env l).
  Proof.
    intros P N. apply Forall_map. rewrite Forall_forall in *. intros x I y Cy. destruct (P x I) as [Tr Nx].
    pose proof (env_carries x Tr) as Cx. rewrite Nx in Cx. unfold carries in Cx, Cy. rewrite Cx in Cy. injection Cy as <-. exact (N x I).
  Qed.
  (** a transaction that only the unchecked build accepts ends up on one ledger only *)
  Lemma post_split h x : history true h -> history false h -> Forall plainly (h ++ [x]) -> fresh h (s_id x) ->
    validate false (ms_store (ms_from h)) x = Ok tt -> validate true (ms_store (ms_from h)) x <> Ok tt ->
    Forall honest (map into_env (h ++ [x]))
    /\ In x (decoded (run false [] (map into_env (h ++ [x])))) /\ ~ In x (decoded (run true [] (map into_env (h ++ [x])))).
  Proof.
    intros Ht Hf P F Vf Vt. pose proof (proj1 (proj1 (Forall_app _ _ _) P)) as Ph. pose proof (proj2 (proj1 (Forall_app _ _ _) P)) as Px.
    inversion Px as [|? ? Qx _]; subst. split; [|split].
    - apply Forall_map. revert P. apply Forall_impl. intros y Q. apply env_honest, Q.
    - assert (Hx : history false (h ++ [x])) by (constructor; assumption). destruct (post_history false _ Hx P) as (_ & _ & ->).
      apply (hist_stored false _ _ Hx). apply in_or_app. right. left. reflexivity.
    - destruct (post_history true h Ht Ph) as (W & HL & D). rewrite map_app. cbn [map]. unfold run in *. rewrite fold_left_app. cbn [fold_left].
      set (L := fold_left (submit true) (map into_env h) []) in *. unfold submit at 1. destruct (verify_and_store true L (into_env x)) as [L'| |] eqn:E.
      + exfalso. apply Vt, (post_one true L h x W HL D Ht Qx F). exists L'. exact E.
      + rewrite D. intros I. apply (hist_stored true _ _ Ht) in I. exact (F x I eq_refl).
      + rewrite D. intros I. apply (hist_stored true _ _ Ht) in I. exact (F x I eq_refl).
  Qed.
  Lemma replay_app dbg : forall l x m m', audit_from dbg m l = Ok m' -> audit_from dbg m (l ++ [x]) = audit_from dbg m' [x].
  Proof.
    induction l as [|y l IH]; intros x m m' E; [injection E as ->; reflexivity|]. cbn [audit_from app] in *. apply bind_ok in E as ([] & V & E). rewrite V. cbn [bind]. apply IH, E.
  Qed.
  Lemma replay_history dbg h : history dbg h -> audit_from dbg ms_empty h = Ok (ms_from h).
  Proof.
    induction 1 as [|h x Hh IH F V]; [reflexivity|]. rewrite (replay_app _ _ x _ _ IH). cbn [audit_from]. rewrite V. cbn [map_err bind]. unfold ms_from. rewrite fold_left_app. reflexivity.
  Qed.
  Lemma replay_snoc h x : history true h -> history false h -> validate false (ms_store (ms_from h)) x = Ok tt ->
    validate true (ms_store (ms_from h)) x = Panic POverflow -> fresh h (s_id x) ->
    (exists m, audit_from true ms_empty h = Ok m) /\ (exists m, audit_from false ms_empty (h ++ [x]) = Ok m) /\ audit_from true ms_empty (h ++ [x]) = Panic POverflow.
  Proof.
    intros Ht Hf Vf Vt F. split; [eexists; apply replay_history, Ht|]. split; [eexists; apply replay_history; constructor; assumption|].
    rewrite (replay_app true h x _ _ (replay_history true h Ht)). cbn [audit_from]. rewrite Vt. reflexivity.
  Qed.
End Post.

(** ** 256 trustees with the numbers 1 to 255 and 0, all of whom mix *)
Definition indices : list byte := map (fun n => u8_of (N.of_nat n)) (seq 1 256).
Lemma every_index i : In i indices.
Proof.
  unfold indices. apply in_map_iff. pose proof (u8v_lt i) as B. destruct (N.eq_dec (u8v i) 0) as [Z|Z].
  - exists 256. split; [apply zero_is in Z; rewrite Z; reflexivity|]. apply in_seq. lia.
  - exists (N.to_nat (u8v i)). rewrite N2Nat.id. split; [apply u8_of_u8v|]. apply in_seq. lia.
Qed.
Lemma indices_nodup : NoDup indices.
Proof.
  apply (NoDup_count_occ' byte_eq_dec). intros i _. destruct i; vm_compute; reflexivity.
Qed.
#[local] Opaque indices.
Section Chain.
  Context {C : Crypto}.
  Variables (ka kt : ed_secret) (el : ElectionTx) (g : EGPublicKey) (pr : byte -> PubkeyProof) (sp : byte -> byte -> ShuffleProof) (c b : u32).
  Notation e := (el_id el).
  Definition by_key (sk : ed_secret) (t : Tx) : STx := mk_stx t (ed_sign sk (tx_bytes t)).
  Definition start : STx := by_key ka (XElection el).
  Definition key_by (i : byte) : STx := by_key kt (XPublicKey (mk_pubkey (pubkey_build_id e i) e i (ed_public kt) g (pr i))).
  Definition joint : STx := by_key ka (XEncryptionKey (mk_enckey (enckey_build_id e) e (ed_public ka) g)).
  Definition over : STx := by_key ka (XVotingEnd (mk_votingend (votingend_build_id e) e (ed_public ka))).
  (** mix number [n], of no votes *)
  Definition mix_id (n : nat) : Identifier := mix_build_id e c b (u8_of (N.of_nat n)) (u8_of (N.of_nat n + 1)).
  Definition empty_mix (n : nat) : MixTx :=
    mk_mix (mix_id n) e (match n with O => None | S p => Some (mix_id p) end) (u8_of (N.of_nat n + 1)) (ed_public kt)
      (u8_of (N.of_nat n)) c b [] [] (sp (u8_of (N.of_nat n)) (u8_of (N.of_nat n + 1))).
  Definition nth_mix (n : nat) : STx := by_key kt (XMix (empty_mix n)).
  Definition before_mixes : list STx := (start :: map key_by indices) ++ [joint; over].
  Definition mixes_to (n : nat) : list STx := before_mixes ++ map nth_mix (seq 0 n).

  Hypothesis signs : ed_sign_verifies.
  Hypothesis shuffles : forall m t, shuffle_verify (mix_seed c b m t) 0 [] [] g (sp m t) = true.
  Hypothesis own : el_authority el = ed_public ka.
  Hypothesis well : ok_tx [] true (XElection el).
  Hypothesis mixnet : exists mc, el_mix_config el = Some mc.
  Hypothesis people : el_trustees el = map (fun i => mk_trustee (ed_public kt) i (u_of 8 0) x00) indices.

  Lemma by_key_ok sk t k : tx_public t = Some k -> ed_public sk = k -> signed_by k (by_key sk t).
  Proof. intros _ <-. unfold signed_by, by_key. cbn [s_tx s_sig]. apply signs. Qed.
  Lemma grow dbg h x : history dbg h -> fresh h (s_id x) -> id_type (s_id x) = s_type x -> (forall k, tx_public (s_tx x) = Some k -> signed_by k x) ->
    ok_tx (stored h) dbg (s_tx x) -> history dbg (h ++ [x]).
  Proof. intros Hh F A B D. constructor; [exact Hh|exact F|]. apply (validate_iff _ _ (stored_holds h)). auto. Qed.
  Lemma at_stored dbg h i t x : history dbg h -> In x h -> s_id x = i -> s_tx x = t -> at_id (stored h) i t.
  Proof. intros Hh I E T. exists x. split; [apply (hist_stored dbg _ _ Hh), I|auto]. Qed.
  Lemma every_trustee i : lists_trustee el i (ed_public kt).
  Proof.
    exists (mk_trustee (ed_public kt) i (u_of 8 0) x00). split; [|auto]. rewrite people. apply (in_map (fun i => mk_trustee (ed_public kt) i (u_of 8 0) x00)), every_index.
  Qed.
  Lemma start_history dbg : history dbg [start].
  Proof.
    apply (grow dbg [] start); [apply hist_nil|intros y []| | |exact well].
    - unfold start, by_key, s_id, s_type. cbn [s_tx tx_id tx_type]. rewrite (proj1 well). reflexivity.
    - intros k K. apply (by_key_ok ka _ k K). cbn in K. congruence.
  Qed.
  Lemma start_type : id_type e = TElection.
  Proof. rewrite (proj1 well). reflexivity. Qed.
  Lemma keys_history dbg l : NoDup l -> history dbg (start :: map key_by l).
  Proof.
    induction l as [|i l IH] using rev_ind; intros N; [apply start_history|]. rewrite map_app. cbn [map]. rewrite app_comm_cons.
    apply NoDup_remove in N as [N Ni]. rewrite app_nil_r in N, Ni. specialize (IH N). apply grow; [exact IH| |reflexivity|intros k K; apply (by_key_ok kt _ k K); cbn in K; congruence|].
    - intros y [<-|I] E.
      + apply (f_equal id_type) in E. unfold start, by_key, s_id in E. cbn [s_tx tx_id] in E. rewrite start_type in E. discriminate E.
      + apply in_map_iff in I as (j & <- & Ij). apply (f_equal id_unique), first_byte_inj in E. congruence.
    - exists el. split; [|apply every_trustee]. eapply at_stored; [exact IH|left; reflexivity|reflexivity|reflexivity].
  Qed.
  Lemma keys_listed dbg : history dbg (start :: map key_by indices) ->
    range_is (stored (start :: map key_by indices)) e TKeyGenPublicKey XPublicKey
      (map (fun y => match s_tx y with XPublicKey p => p | _ => mk_pubkey e e x00 (ed_public kt) g (pr x00) end) (listed (stored (start :: map key_by indices)) e TKeyGenPublicKey))
    /\ Permutation (listed (stored (start :: map key_by indices)) e TKeyGenPublicKey) (map key_by indices).
  Proof.
    intros Hh. assert (P : Permutation (listed (stored (start :: map key_by indices)) e TKeyGenPublicKey) (map key_by indices)).
    { apply NoDup_Permutation.
      - apply (NoDup_map_inv s_id), asc_nodup, listed_asc, stored_asc.
      - pose proof (NoDup_map_inv s_id _ (hist_nodup dbg _ Hh)) as N. apply NoDup_cons_iff in N. exact (proj2 N).
      - intros y. rewrite listed_in, (hist_stored dbg _ _ Hh). split.
        + intros ([<-|I] & _ & Ty); [|exact I]. unfold start, by_key, s_id in Ty. cbn [s_tx tx_id] in Ty. rewrite start_type in Ty. discriminate Ty.
        + intros I. split; [right; exact I|]. apply in_map_iff in I as (i & <- & _). auto. }
    split; [|exact P]. unfold range_is. rewrite map_map. apply map_ext_in. intros y I. apply (Permutation_in _ P) in I. apply in_map_iff in I as (i & <- & _). reflexivity.
  Qed.
  Lemma before_history dbg : history dbg before_mixes.
  Proof.
    pose proof (keys_history dbg indices indices_nodup) as Hh. destruct (keys_listed dbg Hh) as [R P]. unfold before_mixes.
    set (h := start :: map key_by indices) in *. assert (H1 : history dbg (h ++ [joint])).
    { apply grow; [exact Hh| |reflexivity|intros k K; apply (by_key_ok ka _ k K); cbn in K; congruence|].
      - intros y [<-|I] E.
        + apply (f_equal id_type) in E. unfold start, by_key, s_id in E. cbn [s_tx tx_id] in E. rewrite start_type in E. discriminate E.
        + apply in_map_iff in I as (j & <- & Ij). apply (f_equal id_type) in E. discriminate E.
      - exists el. eexists. split; [eapply at_stored; [exact Hh|left; reflexivity|reflexivity|reflexivity]|]. split; [cbn [ek_authority]; congruence|].
        split; [exact R|]. split; [rewrite map_length, (Permutation_length P), people, !map_length; reflexivity|]. split.
        + intros tr I. rewrite people in I. apply in_map_iff in I as (i & <- & Ii). exists (mk_pubkey (pubkey_build_id e i) e i (ed_public kt) g (pr i)). split; [|auto].
          apply in_map_iff. exists (key_by i). split; [reflexivity|]. apply (Permutation_in _ (Permutation_sym P)), in_map, Ii.
        + intros p I. apply in_map_iff in I as (y & <- & Iy). apply (Permutation_in _ P) in Iy. apply in_map_iff in Iy as (i & <- & _). reflexivity. }
    change [joint; over] with ([joint] ++ [over]). rewrite app_assoc. apply grow; [exact H1| |reflexivity|intros k K; apply (by_key_ok ka _ k K); cbn in K; congruence|].
    - intros y I E. apply in_app_or in I as [[<-|I]|[<-|[]]].
      + apply (f_equal id_type) in E. unfold start, by_key, s_id in E. cbn [s_tx tx_id] in E. rewrite start_type in E. discriminate E.
      + apply in_map_iff in I as (j & <- & Ij). apply (f_equal id_type) in E. discriminate E.
      + apply (f_equal id_type) in E. discriminate E.
    - exists el. split; [eapply at_stored; [exact H1|left; reflexivity|reflexivity|reflexivity]|]. cbn [ve_authority]. congruence.
  Qed.
  Lemma small_index n : n < 256 -> u8v (u8_of (N.of_nat n)) = N.of_nat n.
  Proof. intros H. rewrite u8v_u8_of. apply N.mod_small. lia. Qed.
  Lemma before_types y : In y before_mixes -> id_type (s_id y) <> TMix /\ id_type (s_id y) <> TVote.
  Proof.
    unfold before_mixes. intros I. apply in_app_or in I as [[<-|I]|[<-|[<-|[]]]].
    - unfold start, by_key, s_id. cbn [s_tx tx_id]. rewrite start_type. split; discriminate.
    - apply in_map_iff in I as (i & <- & _). split; discriminate.
    - split; discriminate.
    - split; discriminate.
  Qed.
  Lemma mixes_history dbg n : n <= 255 \/ n = 256 /\ dbg = false -> history dbg (mixes_to n).
  Proof.
    induction n as [|n IH]; intros B; [unfold mixes_to; cbn [seq map]; rewrite app_nil_r; apply before_history|].
    assert (Hh : history dbg (mixes_to n)) by (apply IH; lia). unfold mixes_to in *. rewrite seq_S, map_app, app_assoc. cbn [map plus].
    set (h := before_mixes ++ map nth_mix (seq 0 n)) in *.
    assert (Mx : forall y, In y h -> s_type y = TMix -> exists k, k < n /\ y = nth_mix k).
    { intros y I Ty. pose proof (hist_typed dbg h y Hh I) as Tt. apply in_app_or in I as [I|I]; [destruct (before_types y I) as [X _]; congruence|].
      apply in_map_iff in I as (k & <- & Ik). apply in_seq in Ik. exists k. split; [lia|reflexivity]. }
    apply grow; [exact Hh| |reflexivity|intros k K; apply (by_key_ok kt _ k K); cbn in K; congruence|].
    - intros y I E. assert (Ty : s_type y = TMix) by (rewrite <- (hist_typed dbg h y Hh I), E; reflexivity). destruct (Mx y I Ty) as (k & Lk & ->).
      change (mix_id k = mix_id n) in E. unfold mix_id in E.
      assert (Q : id_cmp (mix_build_id e c b (u8_of (N.of_nat k)) (u8_of (N.of_nat k + 1))) (mix_build_id e c b (u8_of (N.of_nat n)) (u8_of (N.of_nat n + 1))) = Lt).
      { apply mix_lt. rewrite !small_index by lia. lia. }
      rewrite E, (proj2 (id_cmp_eq _ _) eq_refl) in Q. discriminate Q.
    - destruct mixnet as (mc & Mc). split; [reflexivity|]. split; [exists el, mc; split; [eapply at_stored; [exact Hh|left; reflexivity|reflexivity|reflexivity]|]; split; [exact Mc|apply every_trustee]|].
      split.
      { cbn [empty_mix mx_trustee mx_index nth_mix by_key s_tx]. destruct B as [B|[B ->]].
        - left. rewrite u8v_u8_of, N.mod_small by lia. rewrite small_index by lia. lia.
        - right. assert (n = 255) by lia. subst n. auto. }
      split; [reflexivity|]. exists [], (mk_enckey (enckey_build_id e) e (ed_public ka) g). split; [|split; [|apply shuffles]].
      + destruct n as [|p].
        * left. split; [reflexivity|]. split; [reflexivity|]. exists [].
          assert (N : listed (stored h) e TVote = []).
          { destruct (listed (stored h) e TVote) as [|y l] eqn:El; [reflexivity|exfalso]. assert (I : In y (listed (stored h) e TVote)) by (rewrite El; left; reflexivity).
            apply listed_in in I as (I & _ & Ty). apply (hist_stored dbg _ _ Hh) in I. unfold h in I. cbn [seq map] in I. rewrite app_nil_r in I. exact (proj2 (before_types y I) Ty). }
          unfold range_is. cbn [nth_mix by_key s_tx empty_mix mx_election mx_votes]. rewrite N. auto.
        * right. exists (mix_id p), (empty_mix p). split; [reflexivity|]. split.
          { apply (at_stored dbg h _ _ (nth_mix p)); [exact Hh| |reflexivity|reflexivity]. apply in_or_app. right. apply in_map, in_seq. lia. }
          split; [left; cbn [nth_mix by_key s_tx empty_mix mx_index]; rewrite !small_index by lia; lia|]. repeat (split; [reflexivity|]). reflexivity.
      + apply (at_stored dbg h _ _ joint); [exact Hh| |reflexivity|reflexivity]. apply in_or_app. left. apply in_or_app. right. left. reflexivity.
  Qed.
  Lemma last_overflows : validate false (ms_store (ms_from (mixes_to 255))) (nth_mix 255) = Ok tt
    /\ validate true (ms_store (ms_from (mixes_to 255))) (nth_mix 255) = Panic POverflow /\ fresh (mixes_to 255) (s_id (nth_mix 255)).
  Proof.
    pose proof (mixes_history false 256 ltac:(auto)) as H. unfold mixes_to in H. change (seq 0 256) with (seq 0 (255 + 1)) in H. rewrite seq_app, map_app, app_assoc in H.
    change (map nth_mix (seq (0 + 255) 1)) with [nth_mix 255] in H. change (before_mixes ++ map nth_mix (seq 0 255)) with (mixes_to 255) in H.
    apply hist_snoc_inv in H as (_ & F & V). split; [exact V|]. split; [|exact F]. destruct (C92_same_or_stops (ms_store (ms_from (mixes_to 255))) (nth_mix 255)) as [E|E]; [|exact E].
    exfalso. rewrite V in E. apply (validate_iff _ _ (stored_holds _)) in E as (_ & _ & E). destruct E as (_ & _ & [E|(E & _)] & _); [|discriminate E].
    cbn [nth_mix by_key s_tx empty_mix mx_trustee mx_index] in E. vm_compute in E. discriminate E.
  Qed.
End Chain.

Section Cases.
  #[local] Existing Instance Toy.
  (** the scene's authority, and its first trustee in all 256 places *)
  Definition el256 : ElectionTx :=
    mk_election EID (pk_of x01) (map (T x0a) indices) x02 [auth1] x01 (Some mixcfg) [ballot1] [contest0] no_props.
  Definition mixes256 : nat -> list STx := mixes_to (key_of x01) (key_of x0a) el256 egk proof_of mixproof (n32 0) (n32 0).
  Definition last_mix : STx := nth_mix (key_of x0a) el256 mixproof (n32 0) (n32 0) 255.
  Definition plainlyb (t : Tx) : bool :=
    let v := ser_tx t in cwf v && Nat.leb (cdepth v) 126
    && match t with XElection t => forallb (fun r => N.eqb (uv (tr_num r)) 0 && Byte.eqb (tr_threshold r) x00) (el_trustees t) | _ => true end.
  Lemma plainlyb_ok x : plainlyb (s_tx x) = true -> plainly x.
  Proof.
    intros H. unfold plainlyb in H. cbv zeta in H.
    apply andb_true_iff in H as [H P]. apply andb_true_iff in H as [A B]. apply Nat.leb_le in B.
    assert (Tr : transportable x) by (apply transport; split; assumption). split; [exact Tr|]. apply sendable_norm. split; [exact Tr|].
    unfold plain. destruct (s_tx x) as [t|t|t|t|t|t|t|t|t|t]; auto. apply Forall_forall. intros r Ir. rewrite forallb_forall in P.
    specialize (P r Ir). apply andb_true_iff in P as [P Q]. apply N.eqb_eq in P. apply byte_eqb_eq in Q. split; [exact P|exact Q].
  Qed.
  Lemma checked256 : plainlyb (XElection el256) = true.
  Proof. vm_compute. reflexivity. Qed.
  Lemma plainly256 : Forall plainly (mixes256 255 ++ [last_mix]).
  Proof.
    assert (B : forall n, mixes256 n ++ [last_mix] = (start (key_of x01) el256 :: map (key_by (key_of x0a) el256 egk proof_of) indices)
      ++ [joint (key_of x01) el256 egk; over (key_of x01) el256] ++ map (nth_mix (key_of x0a) el256 mixproof (n32 0) (n32 0)) (seq 0 n) ++ [last_mix]).
    { intros n. unfold mixes256, mixes_to, before_mixes. rewrite <- !app_assoc. reflexivity. }
    rewrite B. clear B. assert (M : forall n, plainly (nth_mix (key_of x0a) el256 mixproof (n32 0) (n32 0) n)).
    { intros n. split; [|reflexivity]. apply transport. cbn [nth_mix by_key s_tx ser_tx]. apply sm_mix; try reflexivity; [intros ? []|]. apply sm_arr; [reflexivity|].
      repeat constructor. }
    apply Forall_app. split; [constructor|apply Forall_app; split; [|apply Forall_app; split]].
    - apply plainlyb_ok. exact checked256.
    - apply Forall_map, Forall_forall. intros i _. split; [|reflexivity]. apply transport. apply sm_pubkey; (split; [reflexivity|apply Nat.le_0_l]).
    - repeat constructor; try reflexivity; apply plainlyb_ok; vm_compute; reflexivity.
    - apply Forall_map, Forall_forall. intros n _. apply M.
    - repeat constructor; apply (M 255).
  Qed.
  Lemma shuffles256 m t : shuffle_verify (mix_seed (n32 0) (n32 0) m t) 0 [] [] egk (mixproof m t) = true.
  Proof. cbn [shuffle_verify Toy mixproof sv any]. apply andb_true_iff. split; [|reflexivity]. apply andb_true_iff. split; [|reflexivity]. apply cval_eqb_eq. reflexivity. Qed.
  Lemma well256 : ok_tx [] true (XElection el256).
  Proof. split; [reflexivity|]. split; vm_compute; discriminate. Qed.
  Lemma mixnet256 : exists mc, el_mix_config el256 = Some mc.
  Proof. exists mixcfg. reflexivity. Qed.
  Lemma history256 dbg n : n <= 255 \/ n = 256 /\ dbg = false -> history dbg (mixes256 n).
  Proof. apply mixes_history; [exact toy_ed_sign_verifies|exact shuffles256|reflexivity|exact well256|exact mixnet256|reflexivity]. Qed.
  Lemma last256 : validate false (ms_store (ms_from (mixes256 255))) last_mix = Ok tt
    /\ validate true (ms_store (ms_from (mixes256 255))) last_mix = Panic POverflow /\ fresh (mixes256 255) (s_id last_mix).
  Proof. apply last_overflows; [exact toy_ed_sign_verifies|exact shuffles256|reflexivity|exact well256|exact mixnet256|reflexivity]. Qed.

  (** an election whose trustees are numbered 1 to 255 and 0 and all mix: the mix of the last one
      is kept by a node built without overflow checks and lost by one built with them, and an
      auditor's verdict on the longer list depends on the build *)
  Theorem C92_split_refuted : exists (l : list STx) (x : STx),
    ~ Forall (numbered 255) (l ++ [x])
    /\ (exists m, audit true l = Ok m) /\ (exists m, audit false (l ++ [x]) = Ok m) /\ audit true (l ++ [x]) = Panic POverflow
    /\ Forall honest (map into_env (l ++ [x]))
    /\ In x (decoded (run false [] (map into_env (l ++ [x])))) /\ ~ In x (decoded (run true [] (map into_env (l ++ [x])))).
  Proof.
    exists (mixes256 255), last_mix. pose proof (history256 true 255 ltac:(lia)) as Ht. pose proof (history256 false 255 ltac:(lia)) as Hf.
    destruct last256 as (Vf & Vt & F). pose proof plainly256 as K. pose proof (replay_snoc (mixes256 255) last_mix Ht Hf Vf Vt F) as (R1 & R2 & R3).
    assert (Hd : exists y r, mixes256 255 = y :: r /\ s_tx y = XElection el256) by (eexists; eexists; split; [reflexivity|reflexivity]).
    revert Hd Ht Hf Vf Vt F K R1 R2 R3. generalize (mixes256 255) as l. generalize last_mix as x. intros x l (y & r & E & Ty) Ht Hf Vf Vt F K R1 R2 R3.
    split. { intros N. rewrite E in N. cbn [app] in N. apply Forall_inv in N. assert (B := N el256 (T x0a x00) Ty (in_map (T x0a) indices x00 (every_index x00))).
      cbn [T tr_index] in B. change (u8v x00) with 0%N in B. lia. }
    assert (A : forall dbg l', audit dbg (y :: l') = audit_from dbg ms_empty (y :: l')).
    { intros dbg l'. unfold audit. unfold s_type. rewrite Ty. reflexivity. }
    rewrite E in *. cbn [app] in *. rewrite !A. repeat (split; [assumption|]).
    apply (post_split (y :: r) x Ht Hf K F Vf). rewrite Vt. discriminate.
  Qed.

  (** the scene's election with its mixnet: trustees 1 and 2, both mix *)
  Definition scene : list STx := setup (Some mixcfg) ++ voting ++ [votingend; mix1; mix2].
  Lemma scene_numbered n : (2 <= n)%N -> Forall (numbered n) scene.
  Proof.
    intros H. unfold scene, setup, voting. cbn [app]. repeat (apply Forall_cons; [try (intros el tr E; discriminate E)|]); [|apply Forall_nil].
    intros el tr E I. cbn [sgn s_tx] in E. injection E as <-. cbn [election el_trustees] in I. destruct I as [<-|[<-|[]]]; cbn [T tr_index]; [change (u8v x01) with 1%N|change (u8v x02) with 2%N]; lia.
  Qed.
  Example C92_scene : Forall (numbered 255) scene /\ is_ok (audit true scene) = true /\ is_ok (audit false scene) = true.
  Proof. split; [apply scene_numbered; lia|]. split; vm_compute; reflexivity. Qed.
  Lemma scene_posted n : (2 <= n)%N -> Forall (numbered_env n) (map into_env scene).
  Proof.
    intros H. apply posted_numbered; [|apply scene_numbered, H]. apply Forall_forall. intros x I. apply plainlyb_ok.
    assert (F : forallb plainlyb (map s_tx scene) = true) by (vm_compute; reflexivity). rewrite forallb_forall in F. apply F, in_map, I.
  Qed.
  Example C92_scene_node : Forall (fun b => Forall (numbered_env 254) (payloads b)) [map Some (map into_env scene)]
    /\ Forall (numbered_env 255) (map into_env scene).
  Proof.
    split; [|apply scene_posted; lia]. constructor; [|constructor]. pose proof (scene_posted 254 ltac:(lia)) as P. revert P. generalize (map into_env scene). intros l P.
    assert (E : payloads (map Some l) = l) by (unfold payloads; clear P; induction l as [|e l IH]; [reflexivity|]; cbn [map flat_map app]; rewrite IH; reflexivity).
    rewrite E. exact P.
  Qed.
End Cases.

Print Assumptions C92_same_or_stops.
Print Assumptions C92_accepted_by_both.
Print Assumptions C92_causes.
Print Assumptions C92_same_ledger_partial.
Print Assumptions C92_same_audit_partial.
Print Assumptions C92_answers_same_or_stop.
Print Assumptions C92_same_node_partial.
Print Assumptions C92_split_refuted.
