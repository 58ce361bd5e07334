(** * C81, white space around a file; C89, the number of a trustee. *)
From Verif Require Import Base BaseFacts Hex HexFacts Utf8 Cbor CborFacts Value ValueFacts Ident BuildId IdentFacts Crypto Types Serde SpecSerde SerdeFacts
  Store Prost Validate Exonum Api Encrypt Audit Cli SpecCli Json SpecJson JsonFacts JsonTx Rest RestFacts SpecDoc DocFacts Setup Toy Scene Props_Json SpecWhite.
From Coq Require Import ZifyBool ZifyNat ZifyN.
Open Scope list_scope.
#[local] Strategy 1000 [stx_from_bytes stx_from_json stxs_from_json stx_json stxs_json api_decode].

Definition codes : list N := [9;10;11;12;13;32;133;160;5760;8192;8193;8194;8195;8196;8197;8198;8199;8200;8201;8202;8232;8233;8239;8287;12288]%N.
Lemma white_codes : white = map utf8_enc codes.
Proof. vm_compute. reflexivity. Qed.
Lemma white_iff u : white_char u <-> In u white.
Proof.
  rewrite white_codes, in_map_iff. split.
  - intros (n & W & U). apply utf8_form_iff in U as [_ ->]. exists n. split; [reflexivity|]. unfold White in W. unfold codes. cbn [In]. lia.
  - intros (n & <- & I). exists n. unfold codes in I. cbn [In] in I. split; [unfold White; lia|]. apply utf8_form_iff. split; [lia|reflexivity].
Qed.
Lemma white_nonempty : Forall (fun c => c <> []) white.
Proof. unfold white. repeat (constructor; [discriminate|]). constructor. Qed.

(** [strip] takes whole characters away until none is in front *)
Lemma strip_spec cs : Forall (fun c => c <> []) cs -> forall f l, length l <= f ->
  (exists us, Forall (fun u => In u cs) us /\ l = concat us ++ strip cs f l) /\ forall u r, In u cs -> strip cs f l <> u ++ r.
Proof.
  intros Ne. assert (NN : forall l, find (fun c => bytes_eqb (firstn (length c) l) c) cs = None -> forall u r, In u cs -> l <> u ++ r).
  { intros l F u r I ->. pose proof (find_none _ _ F u I) as X. cbv beta in X. rewrite firstn_app, Nat.sub_diag, firstn_all, firstn_O, app_nil_r in X.
    rewrite (proj2 (bytes_eqb_eq u u) eq_refl) in X. discriminate X. }
  induction f as [|f IH]; intros l L.
  - destruct l; [|cbn [length] in L; lia]. cbn [strip]. split; [exists []; auto|]. intros u r I E. rewrite Forall_forall in Ne. destruct u; [exact (Ne _ I eq_refl)|discriminate E].
  - cbn [strip]. destruct (find _ cs) as [c|] eqn:F; [|split; [exists []; auto|intros u r I; exact (NN l F u r I)]].
    apply find_some in F as [I E]. apply bytes_eqb_eq in E. assert (c <> []) by (rewrite Forall_forall in Ne; auto).
    destruct (IH (skipn (length c) l)) as [(us & Fu & Eu) Nu]; [rewrite skipn_length; destruct c; [congruence|]; cbn [length] in *; lia|].
    split; [|exact Nu]. exists (c :: us). split; [constructor; assumption|]. cbn [concat]. rewrite <- app_assoc, <- Eu, <- E at 1. rewrite <- E at 2. symmetry. rewrite E. rewrite <- E at 1. apply firstn_skipn.
Qed.
Lemma concat_rev (us : list bytes) : rev (concat us) = concat (rev (map (@rev byte) us)).
Proof. induction us as [|u us IH]; [reflexivity|]. cbn [concat map rev]. rewrite rev_app_distr, IH, concat_app. cbn [concat]. rewrite app_nil_r. reflexivity. Qed.
(** the client takes away the white space at the two ends of a file, and nothing else *)
Theorem C81_trim : forall l, trimmed l (trim l).
Proof.
  intros l. destruct (strip_spec white white_nonempty (length l) l (le_n _)) as [(us & F & E) N]. fold (trim_start l) in E, N. set (m := trim_start l) in *.
  assert (Ne : Forall (fun c => c <> []) (map (@rev byte) white)) by (unfold white; cbn [map rev app]; repeat (constructor; [discriminate|]); constructor).
  destruct (strip_spec (map (@rev byte) white) Ne (length m) (rev m) ltac:(rewrite rev_length; lia)) as [(vs & G & E') N'].
  assert (T : m = trim l ++ concat (rev (map (@rev byte) vs))).
  { unfold trim. fold m. unfold trim_end. rewrite <- concat_rev, <- rev_app_distr, <- E', rev_involutive. reflexivity. }
  assert (Wv : Forall (fun u => In u white) (rev (map (@rev byte) vs))).
  { apply Forall_rev. rewrite Forall_map. apply (Forall_impl _ (P := fun u => In u (map (@rev byte) white))); [|exact G]. intros u I. apply in_map_iff in I as (c & <- & I). rewrite rev_involutive. exact I. }
  split.
  - exists (concat us), (concat (rev (map (@rev byte) vs))). split; [exists us; split; [|reflexivity]|split; [exists (rev (map (@rev byte) vs)); split; [|reflexivity]|]].
    + eapply Forall_impl; [|exact F]. intros u I. apply white_iff, I.
    + eapply Forall_impl; [|exact Wv]. intros u I. apply white_iff, I.
    + rewrite <- T. exact E.
  - intros u W. apply white_iff in W. split; intros r X.
    + apply (N u (r ++ concat (rev (map (@rev byte) vs))) W). rewrite T, X, <- app_assoc. reflexivity.
    + apply (N' (rev u) (rev r)); [apply in_map, W|]. unfold trim, trim_end in X. fold m in X. rewrite <- (rev_involutive (strip _ _ _)), X, rev_app_distr. reflexivity.
Qed.

(** a text in brackets is trimmed to itself, whatever white space surrounds it *)
Lemma white_valid w : white_text w -> utf8_valid w = true.
Proof.
  intros (us & F & ->). induction F as [|u us W F IH]; [reflexivity|]. cbn [concat]. apply utf8_app; [|exact IH]. apply white_iff in W.
  revert u W. apply Forall_forall. unfold white. repeat (constructor; [reflexivity|]). constructor.
Qed.
Lemma strip_white cs us : (forall u l, In u cs -> find (fun c => bytes_eqb (firstn (length c) (u ++ l)) c) cs = Some u) -> Forall (fun c => c <> []) cs ->
  Forall (fun u => In u cs) us -> forall f l, find (fun c => bytes_eqb (firstn (length c) l) c) cs = None -> length (concat us) <= f -> strip cs f (concat us ++ l) = l.
Proof.
  intros Hc Ne F. induction F as [|u us I F IH]; intros f l N L; cbn [concat].
  - cbn [app]. destruct f; cbn [strip]; [reflexivity|]. rewrite N. reflexivity.
  - cbn [concat] in L. rewrite app_length in L. assert (u <> []) by (rewrite Forall_forall in Ne; auto). destruct f as [|f]; [destruct u; [congruence|cbn [length] in L; lia]|].
    cbn [strip]. rewrite <- app_assoc, (Hc u _ I). rewrite skipn_app, skipn_all, Nat.sub_diag. cbn [skipn app]. apply IH; [exact N|]. destruct u; [congruence|]. cbn [length] in L. lia.
Qed.
Lemma find_white u l : In u white -> find (fun c => bytes_eqb (firstn (length c) (u ++ l)) c) white = Some u.
Proof. revert u. apply Forall_forall. unfold white at 1. repeat (constructor; [reflexivity|]). constructor. Qed.
Lemma find_rwhite u l : In u (map (@rev byte) white) -> find (fun c => bytes_eqb (firstn (length c) (u ++ l)) c) (map (@rev byte) white) = Some u.
Proof. revert u. apply Forall_forall. change (map (@rev byte) white) with (map (@rev byte) white) at 1. unfold white at 1. cbn [map rev app]. repeat (constructor; [reflexivity|]). constructor. Qed.
Lemma trim_white w1 w2 a t b : white_text w1 -> white_text w2 -> opens a = true -> closes b = true -> trim (w1 ++ (a :: t ++ [b]) ++ w2) = a :: t ++ [b].
Proof.
  intros (us & F & ->) (vs & G & ->) A B.
  assert (Fi : Forall (fun u => In u white) us) by (eapply Forall_impl; [|exact F]; intros u I; apply white_iff, I).
  assert (Gi : Forall (fun u => In u (map (@rev byte) white)) (rev (map (@rev byte) vs))).
  { apply Forall_rev. rewrite Forall_map. eapply Forall_impl; [|exact G]. intros u I. apply in_map, white_iff, I. }
  assert (Ne : Forall (fun c => c <> []) (map (@rev byte) white)) by (unfold white; cbn [map rev app]; repeat (constructor; [discriminate|]); constructor).
  unfold trim, trim_start. rewrite (strip_white white us find_white white_nonempty Fi).
  - unfold trim_end. assert (E : rev ((a :: t ++ [b]) ++ concat vs) = concat (rev (map (@rev byte) vs)) ++ b :: rev (a :: t)).
    { rewrite rev_app_distr, concat_rev. f_equal. change (a :: t ++ [b]) with ((a :: t) ++ [b]). rewrite rev_app_distr. reflexivity. }
    rewrite E, (strip_white _ _ find_rwhite Ne Gi).
    + change (b :: rev (a :: t)) with ([b] ++ rev (a :: t)). rewrite rev_app_distr, rev_involutive. reflexivity.
    + unfold closes in B. apply orb_true_iff in B. rewrite !beq in B. destruct B as [-> | ->]; reflexivity.
    + rewrite <- concat_rev, rev_length, app_length. lia.
  - unfold opens in A. apply orb_true_iff in A. rewrite !beq in A. destruct A as [-> | ->]; reflexivity.
  - rewrite app_length. lia.
Qed.

Section White.
  Context {C : Crypto}.
  (** a file with white space around it is read, and posted, as the file without *)
  Theorem C81_white : forall w1 w2 a t b, white_text w1 -> white_text w2 -> In a [x5b; x7b] -> In b [x5d; x7d] -> utf8_valid (a :: t ++ [b]) = true ->
    read_file (w1 ++ (a :: t ++ [b]) ++ w2) = read_file (a :: t ++ [b])
    /\ forall dbg L, post_file dbg L (w1 ++ (a :: t ++ [b]) ++ w2) = post_file dbg L (a :: t ++ [b]).
  Proof.
    intros w1 w2 a t b A B Ia Ib U. assert (O : opens a = true) by (destruct Ia as [<-|[<-|[]]]; reflexivity). assert (Cl : closes b = true) by (destruct Ib as [<-|[<-|[]]]; reflexivity).
    assert (R : read_file (w1 ++ (a :: t ++ [b]) ++ w2) = read_file (a :: t ++ [b])).
    { assert (Z : white_text []) by (exists []; split; [constructor|reflexivity]).
      pose proof (trim_white [] [] a t b Z Z O Cl) as T0. cbn [app] in T0. rewrite <- app_assoc in T0. cbn [app] in T0.
      unfold read_file. rewrite (trim_white w1 w2 a t b A B O Cl), T0, U. rewrite (utf8_app w1 _ (white_valid _ A) (utf8_app _ _ U (white_valid _ B))). reflexivity. }
    split; [exact R|]. intros dbg L. unfold post_file. rewrite R. reflexivity.
  Qed.
  (** a trustee has a number from 1 on, its own key, and the numbers asked for *)
  Theorem C89_number : forall index num threshold sk,
    match trustee_new index num threshold sk with
    | Ok (tr, sk') => u8v index <> 0%N /\ tr_index tr = index /\ tr_public_key tr = ed_public sk /\ sk' = sk
    | Err _ => False
    | Panic _ => u8v index = 0%N
    end.
  Proof.
    intros index num threshold sk. unfold trustee_new. destruct (Byte.eqb index x00) eqn:E.
    - apply byte_eqb_eq in E. subst index. reflexivity.
    - split; [|repeat split]. intros Z. assert (index = x00) as -> by (rewrite <- (u8_of_u8v index), Z; reflexivity). discriminate E.
  Qed.
End White.
Example C81_trim_case : trim ([xe3; x80; x80; x0a] ++ [x7b; x20; x7d] ++ [xc2; x85; xe1; x9a; x80]) = [x7b; x20; x7d] /\ trim [xef; xbb; xbf; x7b; x7d] = [xef; xbb; xbf; x7b; x7d].
Proof. split; vm_compute; reflexivity. Qed.
Print Assumptions C81_trim.
Print Assumptions C81_white.
Print Assumptions C89_number.
