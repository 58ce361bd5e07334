(** * TransportFacts: when the serialised form of a transaction is within the limits of the encoding. *)
From Verif Require Import Base BaseFacts Hex HexFacts Utf8 Cbor CborFacts Ident BuildId Crypto Types Serde SerdeFacts SpecCli.
From Coq Require Strings.String.
Import String.StringSyntax.
Open Scope list_scope.

Lemma sm_weak m n v : m <= n -> small m v -> small n v.
Proof. intros H [A B]. split; [exact A|lia]. Qed.
Lemma sm_text n s : (N.of_nat (List.length (sv s)) < 2^64)%N -> small n (CText s).
Proof. intros H. split; [|cbn; lia]. cbn [cwf]. apply N.ltb_lt. exact H. Qed.
Lemma sm_bytes n b : (N.of_nat (List.length b) < 2^64)%N -> small n (CBytes b).
Proof. intros H. split; [|cbn; lia]. cbn [cwf]. apply N.ltb_lt. exact H. Qed.
Lemma sm_hex n l : (N.of_nat (List.length l) < 2^63)%N -> small n (hex_text l).
Proof. intros H. apply sm_text. cbn [sv]. rewrite hex_encode_length. lia. Qed.
Lemma sm_id n i : small n (ser_id i).
Proof. apply sm_hex. unfold id_to_bytes. rewrite app_length. cbn [List.length]. rewrite !arr_len. reflexivity. Qed.
Lemma sm_uint n k (x : uN k) : small n (ser_u x).
Proof. split; [reflexivity|cbn; lia]. Qed.
Lemma sm_u8 n b : small n (ser_u8 b).
Proof. split; [reflexivity|cbn; lia]. Qed.
Lemma sm_null n : small n CNull.
Proof. split; [reflexivity|cbn; lia]. Qed.
Lemma sm_bool n b : small n (CBool b).
Proof. split; [reflexivity|cbn; lia]. Qed.
Lemma sm_arr n l : (N.of_nat (List.length l) < 2^64)%N -> Forall (small n) l -> small (S n) (CArr l).
Proof.
  intros H F. split.
  - cbn [cwf]. apply andb_true_iff. split; [apply N.ltb_lt; exact H|]. apply forallb_forall. rewrite Forall_forall in F.
    intros x I. apply (F x I).
  - cbn [cdepth]. apply le_n_S. clear H. induction F as [|x l [_ A] F IH]; cbn [fold_right]; lia.
Qed.
Lemma sm_map n l : (N.of_nat (List.length l) < 2^64)%N -> Forall (fun p => small n (fst p) /\ small n (snd p)) l -> small (S n) (CMap l).
Proof.
  intros H F. split.
  - cbn [cwf]. apply andb_true_iff. split; [apply N.ltb_lt; exact H|]. apply forallb_forall. rewrite Forall_forall in F.
    intros [a b] I. destruct (F _ I) as [[A _] [B _]]. apply andb_true_iff. split; assumption.
  - cbn [cdepth]. apply le_n_S. clear H. induction F as [|[a b] l [[_ A] [_ B]] F IH]; cbn [fold_right fst snd] in *; lia.
Qed.
Lemma sm_list {A} n (f : A -> cval) l : (N.of_nat (List.length l) < 2^64)%N -> (forall a, In a l -> small n (f a)) -> small (S n) (ser_list f l).
Proof.
  intros H F. apply sm_arr; [rewrite map_length; exact H|]. apply Forall_forall. intros x I. apply in_map_iff in I as (a & <- & I). auto.
Qed.
Lemma sm_none_opt {A} n (f : A -> cval) o : (forall a, o = Some a -> small n (f a)) -> small n (ser_opt f o).
Proof. intros H. destruct o; [apply H; reflexivity|apply sm_null]. Qed.

Section Facts.
  Context {C : Crypto}.
  Lemma sm_pk n p : small n (ser_pk p).
  Proof. apply sm_bytes. rewrite arr_len. reflexivity. Qed.
  Lemma sm_sig n p : small n (ser_sig p).
  Proof. apply sm_bytes. rewrite arr_len. reflexivity. Qed.

  Ltac fields := apply sm_map; [reflexivity|];
    repeat (apply Forall_cons; [split; cbn [fst snd]; [apply sm_text; vm_compute; reflexivity|]|]); try apply Forall_nil;
    try apply sm_id; try apply sm_pk; try apply sm_u8; try apply sm_uint; try apply sm_bool.

  Lemma transport x : small 126 (ser_tx (s_tx x)) -> transportable x.
  Proof.
    intros H. unfold transportable. change 127 with (S 126). unfold ser_stx. apply sm_map; [reflexivity|].
    repeat (apply Forall_cons; [split; cbn [fst snd]; [apply sm_text; vm_compute; reflexivity|]|]); try apply Forall_nil.
    - apply sm_text. destruct (s_type x); vm_compute; reflexivity.
    - exact H.
    - apply sm_sig.
  Qed.
  Lemma sm_trustee n t : small (S n) (ser_trustee t).
  Proof. unfold ser_trustee. fields. Qed.
  Lemma sm_encvote n ev : (N.of_nat (List.length (ev_selections ev)) < 2^64)%N ->
    (forall c, In c (ev_selections ev) -> small n (sv c)) -> small (S (S n)) (ser_encvote ev).
  Proof. intros H F. unfold ser_encvote. fields. apply sm_list; [exact H|exact F]. Qed.
  Lemma sm_authentication n a : (N.of_nat (List.length (an_signature a)) < 2^63)%N -> small (S n) (ser_authentication a).
  Proof.
    intros H. unfold ser_authentication. fields; [|apply sm_hex, H]. apply sm_bytes. rewrite arr_len. reflexivity.
  Qed.
  Lemma sm_vote n t :
    (N.of_nat (List.length (sv (vt_ballot t))) < 2^64)%N -> (N.of_nat (List.length (vt_votes t)) < 2^64)%N ->
    (N.of_nat (List.length (vt_authn t)) < 2^64)%N ->
    (forall a, In a (vt_authn t) -> (N.of_nat (List.length (an_signature a)) < 2^63)%N) ->
    (forall ev, In ev (vt_votes t) -> (N.of_nat (List.length (ev_selections ev)) < 2^64)%N
      /\ forall c, In c (ev_selections ev) -> small n (sv c)) ->
    small (4 + n) (ser_vote t).
  Proof.
    intros H1 H2 H3 H4 H5. cbn [Nat.add]. unfold ser_vote. fields.
    - apply sm_text, H1.
    - apply sm_list; [exact H2|]. intros ev I. destruct (H5 ev I). apply sm_encvote; assumption.
    - apply sm_list; [exact H3|]. intros a I. apply sm_authentication, H4, I.
  Qed.
  Lemma sm_votingend n t : small (S n) (ser_votingend t).
  Proof. unfold ser_votingend. fields. Qed.
  Lemma sm_commitment n t : small n (sv (kc_commitment t)) -> small (S n) (ser_commitment t).
  Proof. intros H. unfold ser_commitment. fields; [|exact H]. apply sm_bytes. rewrite arr_len. reflexivity. Qed.
  Lemma sm_share n t : (N.of_nat (List.length (sv (ks_shares t))) < 2^64)%N ->
    (forall k s, In (k, s) (sv (ks_shares t)) -> (N.of_nat (List.length s) < 2^64)%N) -> small (3 + n) (ser_share t).
  Proof.
    intros H F. cbn [Nat.add]. unfold ser_share. fields. unfold ser_shares. apply sm_arr; [rewrite map_length; exact H|].
    apply Forall_forall. intros v I. apply in_map_iff in I as ([k s] & <- & I). apply sm_arr; [reflexivity|].
    apply Forall_cons; [apply sm_u8|]. apply Forall_cons; [|apply Forall_nil]. apply sm_bytes. eapply F, I.
  Qed.
  Lemma sm_pubkey n t : small n (sv (kp_key t)) -> small n (sv (kp_proof t)) -> small (S n) (ser_pubkey t).
  Proof. intros H K. unfold ser_pubkey. fields; assumption. Qed.
  Lemma sm_enckey n t : small n (sv (ek_key t)) -> small (S n) (ser_enckey t).
  Proof. intros H. unfold ser_enckey. fields; assumption. Qed.
  Lemma sm_partial n t : (N.of_nat (List.length (pd_shares t)) < 2^64)%N ->
    (forall c, In c (pd_shares t) -> small n (sv c)) -> small (2 + n) (ser_partial t).
  Proof. intros H F. cbn [Nat.add]. unfold ser_partial. fields. apply sm_list; [exact H|exact F]. Qed.
  Lemma sm_selection n s : (N.of_nat (List.length (sv (sel_text s))) < 2^64)%N -> small (S n) (ser_selection s).
  Proof. intros H. unfold ser_selection. fields. apply sm_text, H. Qed.
  Lemma sm_decryption n t : (N.of_nat (List.length (dc_trustees t)) < 2^64)%N -> (N.of_nat (List.length (dc_vote t)) < 2^64)%N ->
    (forall s, In s (dc_vote t) -> (N.of_nat (List.length (sv (sel_text s))) < 2^64)%N) -> small (3 + n) (ser_decryption t).
  Proof.
    intros H1 H2 F. cbn [Nat.add]. unfold ser_decryption. fields.
    - apply sm_list; [exact H1|]. intros. apply sm_u8.
    - apply sm_list; [exact H2|]. intros s I. apply sm_selection, F, I.
  Qed.
  Lemma sm_mix n t : (N.of_nat (List.length (mx_votes t)) < 2^64)%N -> (N.of_nat (List.length (mx_out t)) < 2^64)%N ->
    (forall row, In row (mx_out t) -> (N.of_nat (List.length row) < 2^64)%N /\ forall c, In c row -> small n (sv c)) ->
    small n (sv (mx_proof t)) -> small (3 + n) (ser_mix t).
  Proof.
    intros H1 H2 F P. cbn [Nat.add]. unfold ser_mix. fields.
    - apply sm_none_opt. intros i _. apply sm_id.
    - apply sm_list; [exact H1|]. intros. apply sm_id.
    - apply sm_list; [exact H2|]. intros row I. destruct (F row I). apply sm_list; assumption.
    - eapply sm_weak; [|exact P]. lia.
  Qed.
End Facts.
