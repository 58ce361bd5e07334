(** * Props_Args: C101 (the client understands the command lines that its help describes). *)
From Verif Require Import Base BaseFacts Hex Utf8 Cbor Value Ident Crypto Types Serde Validate Json Trustee Authn Setup Args SpecArgs MapFacts Toy ToyT.
From Coq Require Import Sorting.Permutation Lia.
From Coq Require Strings.String.
Import String.StringSyntax.
Open Scope list_scope.

(** ** Reading one option *)
Definition okname (n : bytes) : bool :=
  match n with c :: _ => negb (Byte.eqb dash c) | [] => false end && forallb (fun c => negb (Byte.eqb x3d c)) n.
Lemma until_name n r : forallb (fun c => negb (Byte.eqb x3d c)) n = true -> until x3d (n ++ r) = (n ++ fst (until x3d r), snd (until x3d r)).
Proof.
  induction n as [|c n IH]; cbn [forallb app until]; intros H; [destruct (until x3d r); reflexivity|].
  apply andb_true_iff in H as [H1 H2]. apply negb_true_iff in H1. rewrite H1, (IH H2). reflexivity.
Qed.
Lemma drop_name n r : okname n = true -> drop dash (x2d :: x2d :: n ++ r) = n ++ r.
Proof.
  intros H. apply andb_true_iff in H as [H _]. destruct n as [|c n]; [discriminate|]. apply negb_true_iff in H.
  cbn [drop app]. change (Byte.eqb dash x2d) with true. cbn match. rewrite H. reflexivity.
Qed.
Lemma rstr_sv v : rstr (sv v) = v.
Proof. unfold rstr. rewrite sub_of_sv. reflexivity. Qed.
Lemma drop_eq v : (forall r, v <> x3d :: r) -> drop x3d v = v.
Proof.
  destruct v as [|c v]; intros H; [reflexivity|]. cbn [drop]. destruct (Byte.eqb x3d c) eqn:E; [|reflexivity].
  apply Byte.byte_dec_bl in E. subst c. destruct (H v eq_refl).
Qed.
Definition ov (o : item) : rstring * rstring := (fst o, match snd o with Some v => v | None => lit "" end).
Definition has {A} (o : option A) : bool := match o with Some _ => true | None => false end.
Definition declared (a : App) (o : item) : bool :=
  okname (sv (fst o))
  && match find (fun x => bytes_eqb (sv (a_name x)) (sv (fst o))) (named a) with Some x => Bool.eqb (a_takes x) (has (snd o)) | None => false end.

Lemma parse_item sim a s o k l : p_subs a = [] -> t_trail s = false -> t_pend s = None -> declared a o = true -> written o k ->
  parse sim a s (k ++ l) = parse sim a (mk_st (t_pos s) (t_opts s ++ [ov o]) false None (t_bad s)) l.
Proof.
  intros Sa T P D W. apply andb_true_iff in D as [K D].
  destruct (find _ _) as [x|] eqn:F in D; [|discriminate]. apply Bool.eqb_prop in D.
  pose proof (find_some _ _ F) as [_ N]. apply bytes_eqb_eq in N. assert (Na : a_name x = fst o) by (apply sub_ext; exact N).
  assert (Nd : forallb (fun c => negb (Byte.eqb x3d c)) (sv (fst o)) = true) by (apply andb_true_iff in K; apply K).
  assert (L2 : forall r, Nat.eqb (List.length (x2d :: x2d :: sv (fst o) ++ r)) 2 = false).
  { intros r. destruct (sv (fst o)); [discriminate|reflexivity]. }
  assert (go : forall (t : rstring) (r : bytes), sv t = x2d :: x2d :: sv (fst o) ++ r -> forall (q : list rstring),
    parse sim a s (t :: q) = bind (long_arg a (mk_st (t_pos s) (t_opts s) false None (t_bad s)) t) (fun s' => parse sim a s' q)).
  { intros t r E q. cbn [parse]. rewrite T, P, Sa. cbn [find]. rewrite E, L2. reflexivity. }
  destruct W as [n t E|n v t E Pv|n v t E Nv]; cbn [fst snd has] in *.
  - cbn [app]. assert (E1 : sv (t : rstring) = x2d :: x2d :: sv (n : rstring) ++ []) by (rewrite app_nil_r; exact E).
    rewrite (go t [] E1). unfold long_arg. rewrite E1, drop_name by exact K. rewrite until_name by exact Nd. cbn [until fst snd]. rewrite app_nil_r, F, D.
    cbn [t_pos t_opts t_bad bind]. unfold ov. cbn [fst snd]. rewrite Na. reflexivity.
  - cbn [app]. assert (E1 : sv (t : rstring) = x2d :: x2d :: sv (n : rstring) ++ []) by (rewrite app_nil_r; exact E).
    rewrite (go t [] E1). unfold long_arg. rewrite E1, drop_name by exact K. rewrite until_name by exact Nd. cbn [until fst snd]. rewrite app_nil_r, F, D.
    cbn [t_pos t_opts t_bad bind]. cbn [parse t_trail t_pend t_pos t_opts t_bad].
    assert (Dd : starts_dashes (sv v) = false /\ starts_dash (sv v) = false).
    { unfold plain in Pv. destruct (sv v) as [|c [|c' w]]; try (split; reflexivity).
      assert (c <> x2d) by (intros ->; exact Pv).
      assert (Z : Byte.eqb c dash = false) by (destruct (Byte.eqb c dash) eqn:Z; [apply Byte.byte_dec_bl in Z; contradiction|reflexivity]).
      cbn [starts_dashes starts_dash]. rewrite Z. split; reflexivity. }
    destruct Dd as [-> ->]. unfold ov. cbn [fst snd]. rewrite Na. reflexivity.
  - cbn [app]. assert (E1 : sv (t : rstring) = x2d :: x2d :: sv (n : rstring) ++ x3d :: sv (v : rstring)) by exact E.
    rewrite (go t _ E1). unfold long_arg. rewrite E1, drop_name by exact K. rewrite until_name by exact Nd. cbn [until fst snd]. change (Byte.eqb x3d x3d) with true. cbn match. cbn [fst snd].
    rewrite app_nil_r, F, D. cbn [t_pos t_opts t_bad bind drop]. change (Byte.eqb x3d x3d) with true. cbn match.
    rewrite drop_eq by exact Nv. rewrite rstr_sv. unfold ov. cbn [fst snd]. rewrite Na. reflexivity.
Qed.
Lemma plain_dash w : plain w -> starts_dashes (sv w) = false /\ starts_dash (sv w) = false.
Proof.
  unfold plain. destruct (sv w) as [|c [|c' r]]; try (split; reflexivity). intros Pv.
  assert (c <> x2d) by (intros ->; exact Pv).
  assert (Z : Byte.eqb c dash = false) by (destruct (Byte.eqb c dash) eqn:Z; [apply Byte.byte_dec_bl in Z; contradiction|reflexivity]).
  cbn [starts_dashes starts_dash]. rewrite Z. split; reflexivity.
Qed.
Lemma parse_word sim a s w l : p_subs a = [] -> t_trail s = false -> t_pend s = None -> plain w ->
  List.length (t_pos s) < List.length (positional a) ->
  parse sim a s (w :: l) = parse sim a (mk_st (t_pos s ++ [w]) (t_opts s) false None (t_bad s)) l.
Proof.
  intros Sa T P W L. cbn [parse]. rewrite T, P, Sa. cbn [find]. destruct (plain_dash w W) as [-> ->].
  unfold pos_arg. rewrite Sa, Bool.andb_false_r, T. apply Nat.ltb_lt in L. rewrite L. reflexivity.
Qed.
Lemma parse_mixed sim a ws os l : p_subs a = [] -> mixed ws os l -> forall s, t_trail s = false -> t_pend s = None ->
  List.length (t_pos s) + List.length ws <= List.length (positional a) -> forallb (declared a) os = true ->
  parse sim a s l = finish a (mk_st (t_pos s ++ ws) (t_opts s ++ map ov os) false None (t_bad s)) None.
Proof.
  intros Sa M. induction M as [|w ws os l Pw M IH|o os ws l k W M IH]; intros s T P L D.
  - cbn [parse map]. rewrite !app_nil_r. destruct s; cbn in *; subst; reflexivity.
  - cbn [List.length] in L. rewrite parse_word by (assumption || lia). rewrite IH; cbn [t_pos t_opts t_trail t_pend t_bad]; auto.
    + rewrite <- app_assoc. reflexivity.
    + rewrite app_length. cbn [List.length]. lia.
  - cbn [forallb] in D. apply andb_true_iff in D as [D1 D2]. rewrite (parse_item sim a s o k l Sa T P D1 W).
    rewrite IH; cbn [t_pos t_opts t_trail t_pend t_bad map]; auto. rewrite <- app_assoc. reflexivity.
Qed.
Lemma parse_sub sim a s t c l : t_trail s = false -> t_pend s = None -> find (fun c => rs_eqb (p_name c) t) (p_subs a) = Some c ->
  parse sim a s (t :: l) = bind (parse sim c st0 l) (fun m => finish a s (Some (p_name c, m))).
Proof. intros T P F. cbn [parse]. rewrite T, P, F. reflexivity. Qed.

(** ** Lines of the described form *)
Lemma perm3 {A} (a b c : A) l : Permutation [a; b; c] l ->
  l = [a; b; c] \/ l = [a; c; b] \/ l = [b; a; c] \/ l = [b; c; a] \/ l = [c; a; b] \/ l = [c; b; a].
Proof.
  intros P. destruct l as [|x l]; [apply Permutation_sym, Permutation_nil in P; discriminate|].
  assert (I : In x [a; b; c]) by (apply (Permutation_in _ (Permutation_sym P)); left; reflexivity).
  destruct I as [<-|[<-|[<-|[]]]].
  - apply Permutation_cons_inv, Permutation_length_2_inv in P as [->| ->]; auto.
  - assert (Q : Permutation [a; c] l) by (apply (Permutation_cons_inv (a := b)); rewrite <- P; apply perm_swap).
    apply Permutation_length_2_inv in Q as [->| ->]; auto.
  - assert (Q : Permutation [a; b] l) by (apply (Permutation_cons_inv (a := c)); rewrite <- P; apply Permutation_cons_append with (l := [a; b])).
    apply Permutation_length_2_inv in Q as [->| ->]; auto 7.
Qed.
(** a word before the command: not an option, no command, and clap does not take it for a misspelt one *)
Definition global (similar : rstring -> bool) (w : rstring) : Prop := plain w /\ ~ In w commands /\ similar w = false.

Lemma parse_global sim w s l : global sim w -> t_trail s = false -> t_pend s = None -> List.length (t_pos s) < 2 ->
  parse sim cli s (w :: l) = parse sim cli (mk_st (t_pos s ++ [w]) (t_opts s) false None (t_bad s)) l.
Proof.
  intros (Pw & Nc & Sw) T P L. cbn [parse]. rewrite T, P.
  assert (N : forall n, In n commands -> rs_eqb n w = false).
  { intros n I. destruct (rs_eqb n w) eqn:E; [|reflexivity]. apply rs_eqb_eq in E. subst n. contradiction. }
  assert (F : find (fun c => rs_eqb (p_name c) w) (p_subs cli) = None).
  { destruct (find _ _) as [c|] eqn:F; [|reflexivity]. apply find_some in F as [I E].
    rewrite N in E; [discriminate|]. cbn [p_subs cli group generate] in I. cbn [In] in I.
    repeat (destruct I as [<-|I]; [cbn [p_name]; unfold commands; cbn [In]; tauto|]). destruct I. }
  rewrite F. cbn [p_subs cli].
  assert (H : rs_eqb w (lit "help") = false).
  { destruct (rs_eqb w (lit "help")) eqn:E; [|reflexivity]. apply rs_eqb_eq in E. destruct Nc. subst w. unfold commands. cbn [In]. tauto. }
  rewrite H. destruct (plain_dash w Pw) as [-> ->]. unfold pos_arg. rewrite Sw, T. cbn [andb].
  change (List.length (positional cli)) with 2. apply Nat.ltb_lt in L. rewrite L. reflexivity.
Qed.
Lemma parse_globals sim g l : Forall (global sim) g -> List.length g <= 2 ->
  parse sim cli st0 (g ++ l) = parse sim cli (mk_st g [] false None false) l.
Proof.
  intros F L. destruct g as [|u [|k [|z g]]]; cbn [List.length] in L; [reflexivity| | |lia].
  - apply Forall_inv in F. apply (parse_global sim u st0 l F eq_refl eq_refl). cbn [st0 t_pos List.length]. lia.
  - pose proof (Forall_inv (Forall_inv_tail F)) as Fk. apply Forall_inv in F.
    cbn [app]. rewrite (parse_global sim u st0 _ F eq_refl eq_refl) by (cbn [st0 t_pos List.length]; lia).
    apply (parse_global sim k (mk_st [u] [] false None false) l Fk eq_refl eq_refl). cbn [t_pos List.length]. lia.
Qed.
Definition found (g : list rstring) (n : rstring) (m : Matches) : Matches := mk_matches cli g [] (Some (n, m)).
Definition one_level (sim : rstring -> bool) (g : list rstring) (n : rstring) (l : list rstring) (m : Matches) : Prop :=
  parse sim cli (mk_st g [] false None false) (n :: l) = Ok (found g n m).
Lemma leaf sim g n c l ws os : find (fun c => rs_eqb (p_name c) n) (p_subs cli) = Some c -> p_name c = n -> p_subs c = [] ->
  mixed ws os l -> List.length ws <= List.length (positional c) -> forallb (declared c) os = true ->
  complete c (mk_st ws (map ov os) false None false) None = true ->
  parse sim cli (mk_st g [] false None false) (n :: l) = Ok (found g n (mk_matches c ws (map ov os) None)).
Proof.
  intros F Nc Sc M L D K. rewrite (parse_sub sim cli (mk_st g [] false None false) n c l eq_refl eq_refl F).
  rewrite (parse_mixed sim c ws os l Sc M st0 eq_refl eq_refl L D). cbn [st0 t_pos t_opts t_bad app]. unfold finish at 1. rewrite K.
  cbn [bind t_pos t_opts]. rewrite Nc. reflexivity.
Qed.
Lemma leaf2 sim g n args l ws os : find (fun c => rs_eqb (p_name c) n) (p_subs cli) = Some (group n args) ->
  mixed ws os l -> List.length ws <= List.length (positional (generate args)) -> forallb (declared (generate args)) os = true ->
  complete (generate args) (mk_st ws (map ov os) false None false) None = true ->
  parse sim cli (mk_st g [] false None false) (n :: lit "generate" :: l)
    = Ok (found g n (mk_matches (group n args) [] [] (Some (lit "generate", mk_matches (generate args) ws (map ov os) None)))).
Proof.
  intros F M L D K. rewrite (parse_sub sim cli (mk_st g [] false None false) n _ _ eq_refl eq_refl F).
  rewrite (parse_sub sim (group n args) st0 (lit "generate") (generate args) l eq_refl eq_refl); [|cbn [group p_subs find generate p_name]; destruct (rs_eqb _ _) eqn:E; [reflexivity|vm_compute in E; discriminate]].
  rewrite (parse_mixed sim (generate args) ws os l eq_refl M st0 eq_refl eq_refl L D). cbn [st0 t_pos t_opts t_bad app].
  assert (Z : finish (generate args) (mk_st ws (map ov os) false None false) None = Ok (mk_matches (generate args) ws (map ov os) None)) by (unfold finish; rewrite K; reflexivity).
  rewrite Z. reflexivity.
Qed.

Inductive means : Request -> Call -> Prop :=
| means_post f : means (RPost f) (CPost f)
| means_keygen : means RKeygen CKeygen
| means_get i b : means (RGet i b) (CGet i b)
| means_tally i : means (RTally i) (CTally i)
| means_audit i v t r : means (RAudit i v t r) (CAudit i v t r)
| means_trustee s : means (RTrustee s) (CTrustee s)
| means_authn s k n : numeral (sv k) n -> means (RAuthn s k) (CAuthn s n)
| means_election b : means (RElection b) (CElection b)
| means_vote i v b : means (RVote i v b) (CVote i v b)
| means_end i b : means (RVotingEnd i b) (CVotingEnd i b).

Lemma numeral_ne l n : numeral l n -> exists c r, l = c :: r /\ in_range 48 57 c = true.
Proof.
  assert (Dg : forall c d, digit c d -> in_range 48 57 c = true).
  { intros c d [A B]. unfold in_range. rewrite B. apply andb_true_iff. split; apply N.leb_le; lia. }
  induction 1 as [c d D|l n c d H (c0 & r & -> & R) D _]; [exists c, []|exists c0, (r ++ [c])]; split; auto. exact (Dg c d D).
Qed.
Lemma digits_app l c d : digit c d -> forall acc n, digits acc l = Some n -> (10 * n + d < 2^64)%N -> digits acc (l ++ [c]) = Some (10 * n + d)%N.
Proof.
  intros [A B]. induction l as [|x l IH]; intros acc n; cbn [digits app].
  - intros [= ->] H. unfold in_range. rewrite B. replace ((48 <=? 48 + d) && (48 + d <=? 57))%N with true by (symmetry; apply andb_true_iff; split; apply N.leb_le; lia).
    replace (10 * n + (48 + d - 48))%N with (10 * n + d)%N by lia. apply N.ltb_lt in H. rewrite H. reflexivity.
  - destruct (in_range 48 57 x); [|discriminate]. destruct (_ <? _)%N; [|discriminate]. apply IH.
Qed.
Lemma numeral_parse l n : numeral l n -> parse_usize l = Some n.
Proof.
  intros H. assert (E : digits 0 l = Some n).
  { induction H as [c d [A B]|l n c d H IH D L].
    - apply (digits_app [] c d (conj A B) 0 0%N); [reflexivity|]. change (2^64)%N with 18446744073709551616%N. lia.
    - apply digits_app; assumption. }
  destruct (numeral_ne l n H) as (c & r & -> & R). unfold parse_usize. destruct (Byte.eqb c x2b) eqn:Q; [|exact E].
  apply byte_eqb_eq in Q. subst c. vm_compute in R. discriminate.
Qed.

Section Props.
  Context {C : Crypto} {TC : TCrypto} {SB : SecretBytes}.

  Definition address (g : list rstring) (env : option rstring) : rstring :=
    match g with u :: _ => u | [] => match env with Some u => u | None => lit "http://localhost:8080" end end.
  Lemma client_found sim eu ek g l n m k : Forall (global sim) g -> List.length g <= 2 ->
    parse sim cli (mk_st g [] false None false) l = Ok (found g n m) -> client_key (nth_error g 1) ek = Ok k ->
    client sim eu ek (g ++ l) = let! c := call_of k (found g n m) in Ok (mk_job (address g eu) k c).
  Proof.
    intros F L P K. unfold client. rewrite (parse_globals sim g l F L), P. cbn [bind].
    assert (V1 : value (found g n m) (lit "secret-key") = nth_error g 1) by (destruct g as [|u [|z g]]; reflexivity).
    assert (V2 : value (found g n m) (lit "uri") = nth_error g 0) by (destruct g as [|u g]; reflexivity).
    rewrite V1, V2, K. destruct g; reflexivity.
  Qed.

  (** every line that the help describes is understood: the command runs with the values of the line, the address and the
      key are the words before it, else those of the environment.  Full statement: for all commands; [sign] is missing. *)
  Theorem C101_understood_partial : forall sim eu ek g r c l k,
    Forall (global sim) g -> List.length g <= 2 -> line_for r l -> means r c ->
    client_key (nth_error g 1) ek = Ok k -> (needs_key r -> k <> None) ->
    client sim eu ek (g ++ l) = Ok (mk_job (address g eu) k c).
  Proof.
    intros sim eu ek g r c l k F L (cmd & ws & os & os' & rest & A & P & M & ->) Mc K Nk.
    assert (one : forall n c0 ws0 os0, find (fun x => rs_eqb (p_name x) n) (p_subs cli) = Some c0 -> p_name c0 = n -> p_subs c0 = [] ->
      mixed ws0 os0 rest -> List.length ws0 <= List.length (positional c0) -> forallb (declared c0) os0 = true ->
      complete c0 (mk_st ws0 (map ov os0) false None false) None = true ->
      call_of k (found g n (mk_matches c0 ws0 (map ov os0) None)) = Ok c -> client sim eu ek (g ++ n :: rest) = Ok (mk_job (address g eu) k c)).
    { intros n c0 ws0 os0 H1 H2 H3 H4 H5 H6 H7 H8. rewrite (client_found sim eu ek g _ _ _ k F L (leaf sim g n c0 rest ws0 os0 H1 H2 H3 H4 H5 H6 H7) K), H8. reflexivity. }
    assert (two : forall n args ws0 os0, find (fun x => rs_eqb (p_name x) n) (p_subs cli) = Some (group n args) ->
      mixed ws0 os0 rest -> List.length ws0 <= List.length (positional (generate args)) -> forallb (declared (generate args)) os0 = true ->
      complete (generate args) (mk_st ws0 (map ov os0) false None false) None = true ->
      call_of k (found g n (mk_matches (group n args) [] [] (Some (lit "generate", mk_matches (generate args) ws0 (map ov os0) None)))) = Ok c ->
      client sim eu ek (g ++ n :: lit "generate" :: rest) = Ok (mk_job (address g eu) k c)).
    { intros n args ws0 os0 H1 H4 H5 H6 H7 H8. rewrite (client_found sim eu ek g _ _ _ k F L (leaf2 sim g n args rest ws0 os0 H1 H4 H5 H6 H7) K), H8. reflexivity. }
    destruct A; inversion Mc; subst; cbn [app]; repeat match goal with b : bool |- _ => destruct b end; cbn [if_set app] in P;
      (apply Permutation_nil in P || apply Permutation_length_1_inv in P || apply Permutation_length_2_inv in P as [P|P]
        || apply perm3 in P as [P|[P|[P|[P|[P|P]]]]]); subst os'.
    all: try (eapply one; [reflexivity|reflexivity|reflexivity|exact M|cbn; lia|reflexivity|reflexivity|reflexivity]).
    all: try (eapply two; [reflexivity|exact M|cbn; lia|reflexivity|reflexivity|reflexivity]).
    all: try (destruct k as [k|]; [|destruct (Nk I eq_refl)]; eapply two; [reflexivity|exact M|cbn; lia|reflexivity|reflexivity|reflexivity]).
    all: eapply two; [reflexivity|exact M|cbn; lia|reflexivity|reflexivity|].
    all: match goal with H : numeral ?x ?n |- _ = Ok (CAuthn ?s ?n) =>
      transitivity (bind (E := Stop) (or_panic (parse_usize x) PExpect) (fun z => Ok (CAuthn s z))); [reflexivity|];
      rewrite (numeral_parse x n H); reflexivity end.
  Qed.

  (** [sign] reads an argument that it does not declare: every line that the help describes for it ends in a panic *)
  Theorem C101_sign_refuted : forall sim eu ek g i s l k,
    Forall (global sim) g -> List.length g <= 2 -> line_for (RSign i s) l -> client_key (nth_error g 1) ek = Ok k ->
    client sim eu ek (g ++ l) = Panic PUnwrap.
  Proof.
    intros sim eu ek g i s l k F L (cmd & ws & os & os' & rest & A & P & M & ->) K. inversion A; subst; clear A.
    apply Permutation_length_1_inv in P. subst os'. cbn [app].
    erewrite (client_found sim eu ek g _ _ _ k F L); [|eapply leaf; [reflexivity|reflexivity|reflexivity|exact M|cbn; lia|reflexivity|reflexivity]|exact K].
    reflexivity.
  Qed.
End Props.

(** ** All lines *)
(** what a successful parse guarantees *)
Inductive fits : App -> list rstring -> Matches -> Prop :=
| fits_ a l pos opts sub :
    (forall x, In x (p_args a) -> a_required x = true -> given_value a pos opts (a_name x) <> None) ->
    (forall n m, sub = Some (n, m) -> exists c l', In c (p_subs a) /\ p_name c = n /\ In n l /\ incl l' l /\ fits c l' m) ->
    fits a l (mk_matches a pos opts sub).
Lemma finish_ok a s sub m : finish a s sub = Ok m -> m = mk_matches a (t_pos s) (t_opts s) sub /\ complete a s sub = true.
Proof. unfold finish. destruct (complete a s sub); [|discriminate]. intros [= <-]. auto. Qed.
Lemma complete_required a s sub x : complete a s sub = true -> In x (p_args a) -> a_required x = true ->
  given_value a (t_pos s) (t_opts s) (a_name x) <> None.
Proof.
  unfold complete. intros H I R. apply andb_true_iff in H as [H _]. apply andb_true_iff in H as [_ H].
  rewrite forallb_forall in H. apply H in I. rewrite R in I. cbn [negb orb] in I. destruct (given_value _ _ _ _); congruence.
Qed.
Lemma fits_more a l l' m : incl l l' -> fits a l m -> fits a l' m.
Proof.
  intros I H. destruct H as [a l pos opts sub H1 H2]. constructor; [exact H1|]. intros n m E.
  destruct (H2 n m E) as (c & k & A & B & D & F & G). exists c, k. repeat split; auto. eapply incl_tran; eassumption.
Qed.
Lemma parse_fits sim l : forall a s m, parse sim a s l = Ok m -> fits a l m.
Proof.
  induction l as [|t r IH]; intros a s m.
  - cbn [parse]. intros H. apply finish_ok in H as [-> H]. constructor; [intros x; apply (complete_required a s None); exact H|discriminate].
  - assert (up : forall s', parse sim a s' r = Ok m -> fits a (t :: r) m).
    { intros s' H. apply (fits_more a r); [apply incl_tl, incl_refl|exact (IH _ _ _ H)]. }
    assert (ups : forall q : res Stop St, bind q (fun s' => parse sim a s' r) = Ok m -> fits a (t :: r) m).
    { intros [s'| |]; cbn [bind]; [apply up|discriminate|discriminate]. }
    assert (ends : forall c, find (fun c => rs_eqb (p_name c) t) (p_subs a) = Some c ->
      bind (parse sim c st0 r) (fun m => finish a s (Some (p_name c, m))) = Ok m -> fits a (t :: r) m).
    { intros c F. destruct (parse sim c st0 r) as [m'| |] eqn:E; cbn [bind]; [|discriminate|discriminate].
      intros H. apply finish_ok in H as [-> H]. apply find_some in F as [I T]. apply rs_eqb_eq in T.
      constructor; [intros x; apply (complete_required a s _ x H)|]. intros n m0 [= <- <-]. exists c, r.
      repeat split; auto. { left. exact (eq_sym T). } { apply incl_tl, incl_refl. } exact (IH _ _ _ E). }
    cbn [parse]. destruct (t_trail s); [apply ups|].
    destruct (t_pend s) as [n|].
    + destruct (starts_dashes (sv t)); [destruct (Nat.eqb _ 2); [apply up|apply ups]|].
      destruct (starts_dash (sv t)); [discriminate|apply up].
    + destruct (find _ (p_subs a)) as [c|] eqn:F; [apply (ends c eq_refl)|].
      destruct (match p_subs a with [] => false | _ => _ end); [discriminate|].
      destruct (starts_dashes (sv t)); [destruct (Nat.eqb _ 2); [apply up|apply ups]|].
      destruct (starts_dash (sv t)); [discriminate|apply ups].
Qed.
Lemma long_quiet a s t p : long_arg a s t <> Panic p.
Proof. unfold long_arg. destruct (until _ _) as [n [v|]]; destruct (find _ _) as [x|]; try destruct (a_takes x); try destruct (_ || _); discriminate. Qed.
Lemma pos_quiet sim a s t p : pos_arg sim a s t <> Panic p.
Proof. unfold pos_arg. repeat match goal with |- context [if ?b then _ else _] => destruct b end; discriminate. Qed.
Lemma parse_quiet sim l : forall a s p, parse sim a s l <> Panic p.
Proof.
  assert (Q : forall a s sub p, finish a s sub <> Panic p) by (intros a s sub p; unfold finish; destruct (complete a s sub); discriminate).
  induction l as [|t r IH]; intros a s p; [apply Q|].
  assert (ups : forall q : res Stop St, (forall p, q <> Panic p) -> bind q (fun s' => parse sim a s' r) <> Panic p).
  { intros [s'| |p'] N; cbn [bind]; [apply IH|discriminate|destruct (N p' eq_refl)]. }
  cbn [parse]. destruct (t_trail s); [apply ups, pos_quiet|].
  destruct (t_pend s) as [n|].
  - destruct (starts_dashes (sv t)); [destruct (Nat.eqb _ 2); [apply IH|apply ups, long_quiet]|].
    destruct (starts_dash (sv t)); [discriminate|apply IH].
  - destruct (find _ (p_subs a)) as [c|] eqn:F.
    { destruct (parse sim c st0 r) as [m| |p'] eqn:E; cbn [bind]; [apply Q|discriminate|destruct (IH _ _ _ E)]. }
    destruct (match p_subs a with [] => false | _ => _ end); [discriminate|].
    destruct (starts_dashes (sv t)); [destruct (Nat.eqb _ 2); [apply IH|apply ups, long_quiet]|].
    destruct (starts_dash (sv t)); [discriminate|apply ups, pos_quiet].
Qed.
Lemma must_ok a l m x : fits a l m -> In x (p_args a) -> a_required x = true -> exists v, must m (a_name x) = Ok v.
Proof.
  intros H I R. destruct H as [a l pos opts sub H _]. specialize (H x I R). unfold must, value. cbn [m_app m_pos m_opts].
  destruct (given_value a pos opts (a_name x)) as [v|]; [exists v; reflexivity|congruence].
Qed.
Lemma fits_group n args l m : fits (group n args) l m ->
  m_sub m = None \/ exists l' m', m_sub m = Some (lit "generate", m') /\ incl l' l /\ fits (generate args) l' m'.
Proof.
  intros H. inversion H as [a l0 pos opts sub H1 H2]; subst. cbn [m_sub]. destruct sub as [[k m']|]; [right|left; reflexivity].
  destruct (H2 k m' eq_refl) as (c & l' & [<-|[]] & E & _ & I & Ft). cbn [generate p_name] in E. subst k. exists l', m'. auto.
Qed.

Section Quiet.
  Context {C : Crypto} {TC : TCrypto} {SB : SecretBytes}.

  Lemma quiet_sub k pos opts n m l : fits cli l (mk_matches cli pos opts (Some (n, m))) ->
    (exists p, call_of k (mk_matches cli pos opts (Some (n, m))) = Panic p) ->
    n = lit "sign" \/ n = lit "authn".
  Proof.
    intros H (p & P). inversion H as [a0 l0 p0 o0 s0 _ H2]; subst. destruct (H2 n m eq_refl) as (c & l' & I & <- & _ & _ & M). clear H H2.
    cbn [cli p_subs In] in I.
    destruct I as [<-|[<-|[<-|[<-|[<-|[<-|[<-|[<-|[<-|[<-|[<-|[]]]]]]]]]]]]; [|left; reflexivity| | | | | |right; reflexivity| | |]; exfalso.
    - discriminate P.
    - change (bind (must m (lit "id")) (fun i => Ok (CGet i (present m (lit "pretty")))) = Panic p) in P.
      destruct (must_ok _ _ _ (posit (lit "id") true) M ltac:(cbn [p_args In]; tauto) eq_refl) as [v0 E0]; cbn [a_name posit opt] in E0; rewrite E0 in P; cbn [bind] in P.
      discriminate P.
    - change (bind (must m (lit "INPUT")) (fun i => Ok (CPost i)) = Panic p) in P.
      destruct (must_ok _ _ _ (posit (lit "INPUT") true) M ltac:(cbn [p_args In]; tauto) eq_refl) as [v0 E0]; cbn [a_name posit opt] in E0; rewrite E0 in P; cbn [bind] in P.
      discriminate P.
    - change (bind (must m (lit "election-id")) (fun i => Ok (CTally i)) = Panic p) in P.
      destruct (must_ok _ _ _ (posit (lit "election-id") true) M ltac:(cbn [p_args In]; tauto) eq_refl) as [v0 E0]; cbn [a_name posit opt] in E0; rewrite E0 in P; cbn [bind] in P.
      discriminate P.
    - change (bind (must m (lit "ELECTION-ID")) (fun i => Ok (CAudit i (present m (lit "print-votes")) (present m (lit "print-tally")) (present m (lit "print-results")))) = Panic p) in P.
      destruct (must_ok _ _ _ (posit (lit "ELECTION-ID") true) M ltac:(cbn [p_args In]; tauto) eq_refl) as [v0 E0]; cbn [a_name posit opt] in E0; rewrite E0 in P; cbn [bind] in P.
      discriminate P.
    - change (with_generate m (fun m => let! s := must m (lit "secret") in Ok (CTrustee s)) = Panic p) in P. unfold with_generate, sub_of_name in P.
      apply fits_group in M as [M|(l2 & m2 & M & _ & M2)]; rewrite M in P; [discriminate P|].
      match type of P with context [rs_eqb ?x ?y] => change (rs_eqb x y) with true in P end. cbn match in P.
      destruct (must_ok _ _ _ (opt (lit "secret") true None) M2 ltac:(cbn [generate p_args In]; tauto) eq_refl) as [v0 E0]; cbn [a_name posit opt] in E0; rewrite E0 in P; cbn [bind] in P.
      discriminate P.
    - change (with_generate m (fun m => need_key k (Ok (CElection (present m (lit "post"))))) = Panic p) in P. unfold with_generate, sub_of_name in P.
      apply fits_group in M as [M|(l2 & m2 & M & _ & M2)]; rewrite M in P; [discriminate P|].
      match type of P with context [rs_eqb ?x ?y] => change (rs_eqb x y) with true in P end. cbn match in P.
      unfold need_key in P. destruct k as [k|]; [|discriminate P].
      discriminate P.
    - change (with_generate m (fun m => need_key k (let! i := must m (lit "ELECTION-ID") in Ok (CVotingEnd i (present m (lit "post"))))) = Panic p) in P. unfold with_generate, sub_of_name in P.
      apply fits_group in M as [M|(l2 & m2 & M & _ & M2)]; rewrite M in P; [discriminate P|].
      match type of P with context [rs_eqb ?x ?y] => change (rs_eqb x y) with true in P end. cbn match in P.
      unfold need_key in P. destruct k as [k|]; [|discriminate P].
      destruct (must_ok _ _ _ (posit (lit "ELECTION-ID") true) M2 ltac:(cbn [generate p_args In]; tauto) eq_refl) as [v0 E0]; cbn [a_name posit opt] in E0; rewrite E0 in P; cbn [bind] in P.
      discriminate P.
    - change (with_generate m (fun m => let! i := must m (lit "ELECTION-ID") in let! v := must m (lit "VOTE") in Ok (CVote i v (present m (lit "post")))) = Panic p) in P. unfold with_generate, sub_of_name in P.
      apply fits_group in M as [M|(l2 & m2 & M & _ & M2)]; rewrite M in P; [discriminate P|].
      match type of P with context [rs_eqb ?x ?y] => change (rs_eqb x y) with true in P end. cbn match in P.
      destruct (must_ok _ _ _ (posit (lit "ELECTION-ID") true) M2 ltac:(cbn [generate p_args In]; tauto) eq_refl) as [v0 E0]; cbn [a_name posit opt] in E0; rewrite E0 in P; cbn [bind] in P.
      destruct (must_ok _ _ _ (posit (lit "VOTE") true) M2 ltac:(cbn [generate p_args In]; tauto) eq_refl) as [v1 E1]; cbn [a_name posit opt] in E1; rewrite E1 in P; cbn [bind] in P.
      discriminate P.
  Qed.
  (** no line makes the client panic on its arguments, except those for [sign], and for [authn] (a size that is no number) *)
  Theorem C101_no_panic_partial : forall sim eu ek l p, client sim eu ek l = Panic p -> In (lit "sign") l \/ In (lit "authn") l.
  Proof.
    intros sim eu ek l p. unfold client. destruct (parse sim cli st0 l) as [m| |p'] eqn:E; cbn [bind]; [|discriminate|destruct (parse_quiet _ _ _ _ _ E)].
    apply parse_fits in E. destruct (client_key _ ek) as [k| |p'] eqn:K; [|discriminate|].
    - destruct (call_of k m) as [c| |p0] eqn:P; cbn [bind]; [discriminate|discriminate|]. intros _.
      destruct (m_sub m) as [[n m']|] eqn:Sm.
      + inversion E as [a l0 pos opts sub H1 H2]; subst. cbn [m_sub] in Sm. subst sub.
        destruct (H2 n m' eq_refl) as (c & l' & _ & _ & I & _).
        destruct (quiet_sub k pos opts n m' l E (ex_intro _ p0 P)) as [->| ->]; auto.
      + unfold call_of, sub_of_name in P. rewrite Sm in P. discriminate P.
    - unfold client_key in K. destruct (given _ ek); [|discriminate]. destruct (hex_decode _); cbn [ok_or bind] in K; [|discriminate].
      destruct (sk_from _); cbn [ok_or bind] in K; discriminate.
  Qed.

  (** ** The option that the client itself recommends *)
  Inductive deaf (t : rstring) : App -> Prop :=
  | deaf_ a : (forall s s', long_arg a s t <> Ok s') -> find (fun c => rs_eqb (p_name c) t) (p_subs a) = None ->
      (forall c, In c (p_subs a) -> deaf t c) -> deaf t a.
  Lemma deaf_parse sim (t : rstring) post : starts_dashes (sv t) = true -> Nat.eqb (List.length (sv t)) 2 = false ->
    forall pre a s m, deaf t a -> t_trail s = false -> parse sim a s (pre ++ t :: post) = Ok m -> In (lit "--") pre.
  Proof.
    intros Dd L2. induction pre as [|x pre IH]; intros a s m D T.
    - intros H. exfalso. destruct D as [a Lo F _]. cbn [app parse] in H. rewrite T in H.
      assert (no : forall s', bind (long_arg a s' t) (fun s' => parse sim a s' post) <> Ok m).
      { intros s'. destruct (long_arg a s' t) as [q| |] eqn:E; cbn [bind]; [destruct (Lo _ _ E)|discriminate|discriminate]. }
      destruct (t_pend s) as [n|].
      + rewrite Dd, L2 in H. exact (no _ H).
      + rewrite F, Dd, L2 in H. destruct (match p_subs a with [] => false | _ => _ end); [discriminate|exact (no _ H)].
    - cbn [app parse]. rewrite T. intros H.
      assert (up : forall s', t_trail s' = false -> parse sim a s' (pre ++ t :: post) = Ok m -> In (lit "--") (x :: pre)).
      { intros s' T' H'. right. exact (IH a s' m D T' H'). }
      assert (dd : starts_dashes (sv x) = true -> Nat.eqb (List.length (sv x)) 2 = true -> In (lit "--") (x :: pre)).
      { intros A B. left. apply sub_ext. cbn [sv]. destruct (sv x) as [|c [|d [|e w]]]; try discriminate. cbn [starts_dashes] in A.
        apply andb_true_iff in A as [A1 A2]. apply byte_eqb_eq in A1, A2. subst. reflexivity. }
      assert (lo : forall s0, t_trail s0 = false -> bind (long_arg a s0 x) (fun s' => parse sim a s' (pre ++ t :: post)) = Ok m -> In (lit "--") (x :: pre)).
      { intros s0 T0. destruct (long_arg a s0 x) as [q| |] eqn:E; cbn [bind]; [|discriminate|discriminate]. apply up. revert E. unfold long_arg. destruct (until _ _) as [n v].
        destruct (find _ (named a)) as [y|]; [|match goal with |- (if ?b then _ else _) = _ -> _ => destruct b end; discriminate].
        destruct (a_takes y); [destruct v|]; intros [= <-]; reflexivity. }
      assert (po : bind (pos_arg sim a s x) (fun s' => parse sim a s' (pre ++ t :: post)) = Ok m -> In (lit "--") (x :: pre)).
      { destruct (pos_arg sim a s x) as [q| |] eqn:E; cbn [bind]; [|discriminate|discriminate]. apply up.
        revert E. unfold pos_arg. destruct (sim x && _); [discriminate|]. destruct (Nat.ltb _ _); [|discriminate]. intros [= <-]. exact T. }
      destruct (t_pend s) as [n|].
      + destruct (starts_dashes (sv x)) eqn:A; [destruct (Nat.eqb _ 2) eqn:B in H; [exact (dd eq_refl B)|apply (fun q => lo _ q H); reflexivity]|].
        destruct (starts_dash (sv x)); [discriminate|apply (fun q => up _ q H); reflexivity].
      + destruct (find _ (p_subs a)) as [c|] eqn:F in H.
        { destruct (parse sim c st0 (pre ++ t :: post)) as [m'| |] eqn:E; cbn [bind] in H; [|discriminate|discriminate].
          right. destruct D as [a _ _ Dc]. apply find_some in F as [I _]. exact (IH c st0 m' (Dc c I) eq_refl E). }
        destruct (match p_subs a with [] => false | _ => _ end); [discriminate|].
        destruct (starts_dashes (sv x)) eqn:A; [destruct (Nat.eqb _ 2) eqn:B in H; [exact (dd eq_refl B)|apply (fun q => lo _ q H); reflexivity]|].
        destruct (starts_dash (sv x)); [discriminate|exact (po H)].
  Qed.
  Definition recommended : bytes := sv (lit "--secret-key").
  Lemma cli_deaf (t : rstring) (r : bytes) : sv t = recommended ++ r -> deaf t cli.
  Proof.
    intros E.
    assert (N : forall n : rstring, match sv n with c :: _ => negb (Byte.eqb c x2d) | [] => true end = true -> rs_eqb n t = false).
    { intros n H. destruct (rs_eqb n t) eqn:Q; [|reflexivity]. apply rs_eqb_eq in Q. subst n. rewrite E in H. vm_compute in H. discriminate. }
    assert (Lo : forall a s s', forallb (fun x => negb (bytes_eqb (firstn 10 (sv (a_name x))) (sv (lit "secret-key")))) (named a) = true -> long_arg a s t <> Ok s').
    { intros a s s' H. unfold long_arg. rewrite E. change (drop dash (recommended ++ r)) with (sv (lit "secret-key") ++ r).
      rewrite until_name by reflexivity. destruct (find _ _) as [x|] eqn:F; [|match goal with |- (if ?b then _ else _) <> _ => destruct b end; discriminate]. exfalso.
      apply find_some in F as [I B]. apply bytes_eqb_eq in B. rewrite forallb_forall in H. apply H in I. apply negb_true_iff in I.
      rewrite B in I. change (firstn 10 (sv (lit "secret-key") ++ fst (until x3d r))) with (sv (lit "secret-key")) in I. vm_compute in I. discriminate. }
    assert (leafd : forall n args e, forallb (fun x => negb (bytes_eqb (firstn 10 (sv (a_name x))) (sv (lit "secret-key")))) (filter a_long args) = true ->
      deaf t (mk_app n args [] e)).
    { intros n args e H. constructor; [intros s s'; apply Lo, H|reflexivity|intros c []]. }
    assert (groupd : forall n args, forallb (fun x => negb (bytes_eqb (firstn 10 (sv (a_name x))) (sv (lit "secret-key")))) (filter a_long args) = true ->
      deaf t (group n args)).
    { intros n args H. constructor; [intros s s'; apply Lo; reflexivity| |].
      - cbn [group p_subs find generate p_name]. rewrite N by reflexivity. reflexivity.
      - intros c [<-|[]]. apply leafd, H. }
    constructor; [intros s s'; apply Lo; reflexivity| |].
    - cbn [cli p_subs find group p_name]. rewrite !N by reflexivity. reflexivity.
    - intros c I. cbn [cli p_subs In] in I.
      repeat (destruct I as [<-|I]; [first [apply groupd; reflexivity|apply leafd; reflexivity]|]). destruct I.
  Qed.
  (** no command line with the option --secret-key is accepted (after a word -- it would be a value) *)
  Theorem C101_no_secret_option : forall sim eu ek pre (t : rstring) (r : bytes) post j,
    sv t = recommended ++ r -> client sim eu ek (pre ++ t :: post) = Ok j -> In (lit "--") pre.
  Proof.
    intros sim eu ek pre t r post j E H. unfold client in H. destruct (parse sim cli st0 (pre ++ t :: post)) as [m| |] eqn:P; [|discriminate|discriminate].
    apply (deaf_parse sim t post) in P; auto; [rewrite E; reflexivity|rewrite E; reflexivity|exact (cli_deaf t r E)].
  Qed.
End Quiet.

(** ** Cases *)
#[local] Existing Instance Toy.
#[local] Existing Instance ToyT.
#[local] Instance ToySB : @SecretBytes Toy := { sk_from := arr_of 32 : bytes -> option (@ed_secret Toy) }.
(** equality of outcomes as a computation *)
Definition call_eqb (a b : Call) : bool :=
  match a, b with
  | CPost x, CPost y | CTally x, CTally y | CTrustee x, CTrustee y => rs_eqb x y
  | CKeygen, CKeygen | CHelp, CHelp => true
  | CSign x u, CSign y v => rs_eqb x y && rs_eqb u v
  | CGet x p, CGet y q => rs_eqb x y && Bool.eqb p q
  | CAudit x p q r, CAudit y p' q' r' => rs_eqb x y && Bool.eqb p p' && Bool.eqb q q' && Bool.eqb r r'
  | CAuthn x n, CAuthn y m => rs_eqb x y && (n =? m)%N
  | CElection p, CElection q => Bool.eqb p q
  | CVote x u p, CVote y v q => rs_eqb x y && rs_eqb u v && Bool.eqb p q
  | CVotingEnd x p, CVotingEnd y q => rs_eqb x y && Bool.eqb p q
  | _, _ => false
  end.
Definition key_eqb (a b : option (@ed_secret Toy)) : bool :=
  match a, b with Some x, Some y => bytes_eqb (@arr_l 32 x) (@arr_l 32 y) | None, None => true | _, _ => false end.
Definition same (a b : res Stop (@Job Toy)) : bool :=
  match a, b with
  | Ok x, Ok y => rs_eqb (j_uri x) (j_uri y) && key_eqb (j_key x) (j_key y) && call_eqb (j_call x) (j_call y)
  | Err Shown, Err Shown | Err Misused, Err Misused | Err NoSecret, Err NoSecret | Err (BadSecret BadHex), Err (BadSecret BadHex)
  | Panic PUnwrap, Panic PUnwrap | Panic PExpect, Panic PExpect => true
  | _, _ => false
  end.
Lemma call_eqb_eq a b : call_eqb a b = true -> a = b.
Proof.
  destruct a, b; cbn [call_eqb]; intros H; try discriminate; rewrite ?andb_true_iff in H;
    repeat match goal with H : _ /\ _ |- _ => destruct H end;
    repeat match goal with
      | H : rs_eqb _ _ = true |- _ => apply rs_eqb_eq in H
      | H : Bool.eqb _ _ = true |- _ => apply Bool.eqb_prop in H
      | H : (_ =? _)%N = true |- _ => apply N.eqb_eq in H end; subst; reflexivity.
Qed.
Lemma same_eq a b : same a b = true -> a = b.
Proof.
  destruct a as [[u k c]|[| |[|]|]|[]], b as [[u' k' c']|[| |[|]|]|[]]; cbn [same]; intros H; try discriminate; try reflexivity.
  cbn [j_uri j_key j_call] in H. rewrite !andb_true_iff in H. destruct H as [[H1 H2] H3]. apply rs_eqb_eq in H1. apply call_eqb_eq in H3. subst.
  f_equal. destruct k as [x|], k' as [y|]; cbn [key_eqb] in H2; try discriminate; [|reflexivity].
  apply bytes_eqb_eq in H2. f_equal. f_equal. apply (@arr_ext 32). exact H2.
Qed.
Definition sim0 (w : rstring) : bool := rs_eqb w (lit "keygne").
Definition hexK : rstring := rstr (hex_encode (@arr_l 32 (key_of xab))).
Definition cl := client sim0 None None.
Definition node1 : rstring := lit "http://node1".
(** the options may stand anywhere; the first word is the address, the second the key *)
Example C101_case :
  cl [node1; lit "vote"; lit "generate"; lit "id1"; lit "--post"; lit "Yes"] = Ok (mk_job node1 None (CVote (lit "id1") (lit "Yes") true))
  /\ cl [node1; hexK; lit "election"; lit "generate"] = Ok (mk_job node1 (Some (key_of xab)) (CElection false))
  /\ cl [lit "authn"; lit "generate"; lit "--keysize=2048"; lit "--secret"; lit "keys.json"] = Ok (mk_job (lit "http://localhost:8080") None (CAuthn (lit "keys.json") 2048))
  /\ client sim0 (Some node1) (Some hexK) [lit "voting_end"; lit "generate"; lit "id1"] = Ok (mk_job node1 (Some (key_of xab)) (CVotingEnd (lit "id1") false))
  /\ line_for (RVote (lit "id1") (lit "Yes") true) [lit "vote"; lit "generate"; lit "id1"; lit "--post"; lit "Yes"].
Proof.
  do 4 (split; [apply same_eq; vm_compute; reflexivity|]). exists [lit "vote"; lit "generate"], [lit "id1"; lit "Yes"], [(lit "post", None)], [(lit "post", None)], [lit "id1"; lit "--post"; lit "Yes"].
  split; [apply asks_vote with (b := true)|]. split; [apply Permutation_refl|]. split; [|reflexivity].
  apply mixed_word; [exact I|]. apply (mixed_item (lit "post", None) [] [lit "Yes"] [lit "Yes"] [lit "--post"]); [apply w_switch; reflexivity|].
  apply mixed_word; [exact I|apply mixed_nil].
Qed.
(** a word before the command that clap takes for a misspelt one is refused, whatever follows *)
Theorem C101_misspelt {C : Crypto} {TC : TCrypto} {SB : SecretBytes} : forall similar eu ek w l, plain w -> ~ In w commands -> similar w = true ->
  client similar eu ek (w :: l) = Err Misused.
Proof.
  intros sim eu ek w l Pw Nc Sw. unfold client.
  assert (E : parse sim cli st0 (w :: l) = Err Misused); [|rewrite E; reflexivity].
  cbn [parse t_trail t_pend st0].
  assert (N : forall n, In n commands -> rs_eqb n w = false).
  { intros n I. destruct (rs_eqb n w) eqn:E; [|reflexivity]. apply rs_eqb_eq in E. subst n. contradiction. }
  assert (F : find (fun c => rs_eqb (p_name c) w) (p_subs cli) = None).
  { destruct (find _ _) as [c|] eqn:F; [|reflexivity]. apply find_some in F as [I E].
    rewrite N in E; [discriminate|]. cbn [p_subs cli group generate] in I. cbn [In] in I.
    repeat (destruct I as [<-|I]; [cbn [p_name]; unfold commands; cbn [In]; tauto|]). destruct I. }
  rewrite F. cbn [p_subs cli].
  assert (H : rs_eqb w (lit "help") = false).
  { destruct (rs_eqb w (lit "help")) eqn:E; [|reflexivity]. apply rs_eqb_eq in E. destruct Nc. subst w. unfold commands. cbn [In]. tauto. }
  rewrite H. destruct (plain_dash w Pw) as [-> ->]. unfold pos_arg. rewrite Sw. reflexivity.
Qed.

(** what is refused, and what is misunderstood: an option without its value, an option twice, a value too many, an undeclared
    option, a misspelt command; a key alone is taken for the address, and one after the command for a value too many *)
Example C101_refused_case :
  cl [lit "authn"; lit "generate"; lit "--secret"] = Err Misused /\ cl [lit "election"; lit "generate"; lit "--post"; lit "--post"] = Err Misused
  /\ cl [lit "authn"; lit "generate"; lit "--keysize"; lit "--secret"; lit "f"] = Err Misused
  /\ cl [lit "get"; lit "id1"; lit "id2"] = Err Misused /\ cl [lit "post"] = Err Misused /\ cl [] = Err Misused /\ cl [lit "keygne"] = Err Misused /\ cl [lit "keygne"; lit "keygen"] = Err Misused
  /\ cl [lit "vote"; lit "--help"] = Err Shown /\ cl [lit "tally"; lit "-h"] = Err Shown /\ cl [lit "help"; lit "vote"] = Err Shown
  /\ cl [hexK; lit "election"; lit "generate"] = Err NoSecret /\ cl [lit "election"; lit "generate"; hexK] = Err Misused
  /\ cl [hexK; lit "keygen"] = Ok (mk_job hexK None CKeygen) /\ cl [node1; node1; lit "keygen"] = Err (BadSecret BadHex)
  /\ cl [lit "get"; lit "---pretty=no"; lit "--"; lit "--id"] = Ok (mk_job (lit "http://localhost:8080") None (CGet (lit "--id") true))
  /\ cl [lit "authn"; lit "generate"; lit "--secret==f"] = Ok (mk_job (lit "http://localhost:8080") None (CAuthn (lit "f") 4096)).
Proof. repeat apply conj; apply same_eq; vm_compute; reflexivity. Qed.
(** the client's own advice does not work, with or without an equals sign; sign never works; a size that is no number is a panic *)
Theorem C101_refuted : exists k i f, 
  cl [lit "election"; lit "generate"] = Err NoSecret
  /\ cl [lit "--secret-key"; k; lit "election"; lit "generate"] = Err Misused /\ cl [lit "election"; lit "generate"; lit "--secret-key"; k] = Err Misused
  /\ cl [node1; k; lit "election"; lit "generate"] = Ok (mk_job node1 (Some (key_of xab)) (CElection false))
  /\ cl [lit "sign"; i; lit "--secret"; f] = Panic PUnwrap
  /\ cl [lit "authn"; lit "generate"; lit "--secret"; f; lit "--keysize"; lit "4k"] = Panic PExpect.
Proof. exists hexK, (lit "tx.json"), (lit "key"). repeat apply conj; apply same_eq; vm_compute; reflexivity. Qed.

Print Assumptions C101_understood_partial.
Print Assumptions C101_misspelt.
Print Assumptions C101_sign_refuted.
Print Assumptions C101_no_panic_partial.
Print Assumptions C101_no_secret_option.
Print Assumptions C101_refuted.
