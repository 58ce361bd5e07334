(** * RestFacts: lemmas on the texts of Rest.v. *)
From Verif Require Import Base BaseFacts Hex HexFacts Utf8 Cbor CborFacts Value ValueFacts Ident Crypto Types Serde SpecSerde SerdeFacts
  Store Prost Validate Exonum Api Encrypt Audit Cli Json SpecJson JsonFacts JsonTx Rest ReserFacts.
From Coq Require Import Strings.String.
Open Scope list_scope.

(** ** UTF-8 *)
Lemma utf8_cut a l : utf8_valid (a :: l) = true -> exists m r, a :: l = m ++ r /\ m <> [] /\ utf8_valid r = true
  /\ (forall x, utf8_valid (m ++ x) = utf8_valid x) /\ ((m = [a] /\ in_range 0 127 a = true) \/ forallb (fun b => negb (in_range 0 127 b)) m = true).
Proof.
  assert (Hc : forall lo hi b, (128 <= lo)%N -> in_range lo hi b = true -> in_range 0 127 b = false).
  { intros lo hi b L H. unfold in_range in *. apply andb_true_iff in H as [H _]. apply N.leb_le in H. apply andb_false_iff. right. apply N.leb_gt. lia. }
  assert (Hk : forall b, cont b = true -> in_range 0 127 b = false) by (intros b; apply Hc; lia).
  cbn [utf8_valid]. destruct (in_range 0 127 a) eqn:A.
  - intros H. exists [a], l. repeat split; auto; try discriminate. intros x. cbn [app utf8_valid]. rewrite A. reflexivity.
  - destruct (in_range 194 223 a) eqn:A2; [|destruct (in_range 224 239 a) eqn:A3; [|destruct (in_range 240 244 a) eqn:A4; [|discriminate]]].
    + destruct l as [|b l]; [discriminate|]. intros H. apply andb_true_iff in H as [H1 H2]. exists [a; b], l. repeat split; auto; try discriminate.
      * intros x. cbn [app utf8_valid]. rewrite A, A2, H1. reflexivity.
      * right. cbn [forallb]. rewrite A, (Hk b H1). reflexivity.
    + destruct l as [|b [|c l]]; try discriminate. intros H. apply andb_true_iff in H as [H H2]. apply andb_true_iff in H as [H0 H1].
      exists [a; b; c], l. repeat split; auto; try discriminate.
      * intros x. cbn [app utf8_valid]. rewrite A, A2, A3, H0, H1. reflexivity.
      * right. cbn [forallb]. rewrite A, (Hk c H1). assert (B : in_range 0 127 b = false); [|rewrite B; reflexivity].
        destruct (in_range 224 224 a); [apply (Hc 160%N 191%N); [lia|exact H0]|]. destruct (in_range 237 237 a); [apply (Hc 128%N 159%N); [lia|exact H0]|]. apply Hk, H0.
    + destruct l as [|b [|c [|d l]]]; try discriminate. intros H. apply andb_true_iff in H as [H H2]. apply andb_true_iff in H as [H H3].
      apply andb_true_iff in H as [H0 H1]. exists [a; b; c; d], l. repeat split; auto; try discriminate.
      * intros x. cbn [app utf8_valid]. rewrite A, A2, A3, A4, H0, H1, H3. reflexivity.
      * right. cbn [forallb]. rewrite A, (Hk c H1), (Hk d H3). assert (B : in_range 0 127 b = false); [|rewrite B; reflexivity].
        destruct (in_range 240 240 a); [apply (Hc 144%N 191%N); [lia|exact H0]|]. destruct (in_range 244 244 a); [apply (Hc 128%N 143%N); [lia|exact H0]|]. apply Hk, H0.
Qed.
Lemma utf8_ind (P : bytes -> Prop) : P [] ->
  (forall m r, m <> [] -> utf8_valid r = true -> P r -> (forall x, utf8_valid (m ++ x) = utf8_valid x) ->
     ((exists a, m = [a] /\ in_range 0 127 a = true) \/ forallb (fun b => negb (in_range 0 127 b)) m = true) -> P (m ++ r)) ->
  forall l, utf8_valid l = true -> P l.
Proof.
  intros P0 Ps l. remember (List.length l) as n eqn:N. revert l N. induction n as [n IH] using lt_wf_ind. intros [|a l] N H; [exact P0|].
  destruct (utf8_cut a l H) as (m & r & E & M & R & X & D). rewrite E. apply Ps; auto.
  - apply (IH (List.length r)); auto. subst n. rewrite E, app_length. destruct m; [congruence|]. cbn [List.length]. lia.
  - destruct D as [[D1 D2]|D]; [left; exists a; auto|right; exact D].
Qed.
Lemma utf8_app a b : utf8_valid a = true -> utf8_valid b = true -> utf8_valid (a ++ b) = true.
Proof.
  intros A B. revert a A. apply utf8_ind; [exact B|]. intros m r _ _ IH X _. rewrite <- app_assoc, X. exact IH.
Qed.
Lemma ascii_utf8 l : forallb (in_range 0 127) l = true -> utf8_valid l = true.
Proof. induction l as [|b l IH]; [reflexivity|]. cbn [forallb utf8_valid]. intros H. apply andb_true_iff in H as [-> H]. auto. Qed.
Lemma esc_ascii b : in_range 0 127 b = true -> forallb (in_range 0 127) (esc b) = true.
Proof.
  intros A. pose proof (byte_sweep (fun b => implb (in_range 0 127 b) (forallb (in_range 0 127) (esc b))) ltac:(vm_compute; reflexivity) b) as H.
  cbv beta in H. rewrite A in H. exact H.
Qed.
Lemma esc_high b : in_range 0 127 b = false -> esc b = [b].
Proof.
  intros A. pose proof (byte_sweep (fun b => implb (negb (in_range 0 127 b)) (bytes_eqb (esc b) [b])) ltac:(vm_compute; reflexivity) b) as H.
  cbv beta in H. rewrite A in H. cbn [negb implb] in H. apply bytes_eqb_eq, H.
Qed.
Lemma esc_utf8 s : utf8_valid s = true -> utf8_valid (flat_map esc s) = true.
Proof.
  revert s. apply utf8_ind; [reflexivity|]. intros m r _ _ IH X D. rewrite flat_map_app. destruct D as [(a & -> & A)|D].
  - cbn [flat_map]. rewrite app_nil_r. apply utf8_app; [apply ascii_utf8, esc_ascii, A|exact IH].
  - replace (flat_map esc m) with m; [rewrite X; exact IH|]. clear -D. induction m as [|b m IHm]; [reflexivity|]. cbn [forallb flat_map] in *.
    apply andb_true_iff in D as [D1 D2]. apply negb_true_iff in D1. rewrite (esc_high b D1), <- (IHm D2). reflexivity.
Qed.

Lemma utf8_cons b l : in_range 0 127 b = true -> utf8_valid (b :: l) = utf8_valid l.
Proof. intros H. cbn [utf8_valid]. rewrite H. reflexivity. Qed.
Lemma commas_utf8 w l : utf8_valid w = true -> (forall x, In x l -> utf8_valid x = true) -> utf8_valid (commas w l) = true.
Proof.
  intros W. induction l as [|x l IH]; intros H; [reflexivity|]. cbn [commas]. apply utf8_app; [exact W|]. apply utf8_app; [apply H; left; reflexivity|].
  destruct l as [|y l]; [reflexivity|]. rewrite utf8_cons by reflexivity. apply IH. intros z I. apply H. right. exact I.
Qed.
Lemma quote_utf8 (s : rstring) : utf8_valid (jquote (sv s)) = true.
Proof. unfold jquote. rewrite utf8_cons by reflexivity. apply utf8_app; [apply esc_utf8, (s_ok s)|reflexivity]. Qed.
Lemma jwrite_utf8 nl colon j : (forall n, utf8_valid (nl n) = true) -> utf8_valid colon = true -> forall n, utf8_valid (jwrite nl colon n j) = true.
Proof.
  intros W Cc. induction j as [|[]|s|s|l IH|l IH] using jval_ind2; intros n; try reflexivity.
  - apply (s_ok s).
  - apply quote_utf8.
  - destruct l as [|x l]; [reflexivity|]. cbn [jwrite]. rewrite utf8_cons by reflexivity. apply utf8_app; [|apply utf8_app; [apply W|reflexivity]].
    apply commas_utf8; [apply W|]. intros t I. apply in_map_iff in I as (y & <- & I). rewrite Forall_forall in IH. apply IH, I.
  - destruct l as [|x l]; [reflexivity|]. cbn [jwrite]. rewrite utf8_cons by reflexivity. apply utf8_app; [|apply utf8_app; [apply W|reflexivity]].
    apply commas_utf8; [apply W|]. intros t I. apply in_map_iff in I as ([k v] & <- & I). rewrite Forall_forall in IH.
    apply utf8_app; [apply quote_utf8|]. apply utf8_app; [exact Cc|]. apply (IH _ I).
Qed.
Lemma ws_ascii w : forallb is_ws w = true -> utf8_valid w = true.
Proof.
  intros H. apply ascii_utf8. rewrite forallb_forall in *. intros b I. specialize (H b I).
  pose proof (byte_sweep (fun b => implb (is_ws b) (in_range 0 127 b)) ltac:(vm_compute; reflexivity) b) as K. cbv beta in K. rewrite H in K. exact K.
Qed.

(** ** trimming *)
Lemma strip_ws cs w : (forall b, is_ws b = true -> forall l, find (fun c => bytes_eqb (firstn (List.length c) (b :: l)) c) cs = Some [b]) ->
  forallb is_ws w = true -> forall f l, find (fun c => bytes_eqb (firstn (List.length c) l) c) cs = None ->
  List.length w <= f -> strip cs f (w ++ l) = l.
Proof.
  intros Hc. induction w as [|b w IH]; intros W f l N L.
  - cbn [app]. destruct f; cbn [strip]; [reflexivity|]. rewrite N. reflexivity.
  - cbn [forallb] in W. apply andb_true_iff in W as [Wb W]. destruct f as [|f]; [cbn [List.length] in L; lia|]. cbn [app strip].
    rewrite (Hc b Wb). cbn [List.length skipn]. apply IH; auto. cbn [List.length] in L. lia.
Qed.
Lemma white_ws b : is_ws b = true -> forall l, find (fun c => bytes_eqb (firstn (List.length c) (b :: l)) c) white = Some [b].
Proof. unfold is_ws. rewrite !orb_true_iff, !beq. intros [[[->| ->]| ->]| ->] l; reflexivity. Qed.
Lemma rwhite_ws b : is_ws b = true -> forall l, find (fun c => bytes_eqb (firstn (List.length c) (b :: l)) c) (map (@rev byte) white) = Some [b].
Proof. unfold is_ws. rewrite !orb_true_iff, !beq. intros [[[->| ->]| ->]| ->] l; reflexivity. Qed.
(** a text in brackets with white space around *)
Definition opens (b : byte) : bool := Byte.eqb b x5b || Byte.eqb b x7b.
Definition closes (b : byte) : bool := Byte.eqb b x5d || Byte.eqb b x7d.
Lemma trim_around w1 w2 a t b : forallb is_ws w1 = true -> forallb is_ws w2 = true -> opens a = true -> closes b = true ->
  trim (w1 ++ (a :: t ++ [b]) ++ w2) = a :: t ++ [b].
Proof.
  intros W1 W2 A B. unfold trim, trim_start.
  assert (E1 : strip white (List.length (w1 ++ (a :: t ++ [b]) ++ w2)) (w1 ++ (a :: t ++ [b]) ++ w2) = (a :: t ++ [b]) ++ w2).
  { apply (strip_ws white w1 white_ws W1); [|rewrite app_length; lia]. unfold opens in A. apply orb_true_iff in A. rewrite !beq in A.
    destruct A as [-> | ->]; reflexivity. }
  rewrite E1. unfold trim_end.
  assert (E2 : rev ((a :: t ++ [b]) ++ w2) = rev w2 ++ b :: rev (a :: t)).
  { rewrite rev_app_distr. f_equal. change (a :: t ++ [b]) with ((a :: t) ++ [b]). rewrite rev_app_distr. reflexivity. }
  rewrite E2, (strip_ws (map (@rev byte) white) (rev w2) rwhite_ws).
  - change (b :: rev (a :: t)) with ([b] ++ rev (a :: t)). rewrite rev_app_distr, rev_involutive. reflexivity.
  - rewrite forallb_forall in *. intros x I. apply W2. apply in_rev, I.
  - unfold closes in B. apply orb_true_iff in B. rewrite !beq in B. destruct B as [-> | ->]; reflexivity.
  - rewrite app_length, rev_length. lia.
Qed.

Section F.
  Context {C : Crypto}.
  Lemma into_norm x : into_env (norm_stx x) = into_env x.
  Proof.
    unfold into_env. assert (B : stx_bytes (norm_stx x) = stx_bytes x).
    { unfold stx_bytes, ser_stx. cbn [norm_stx s_tx s_sig]. rewrite ser_norm.
      assert (T : s_type (norm_stx x) = s_type x) by (unfold s_type; cbn [norm_stx s_tx]; destruct (s_tx x); reflexivity). rewrite T. reflexivity. }
    rewrite B. assert (I : s_id (norm_stx x) = s_id x) by (unfold s_id; cbn [norm_stx s_tx]; destruct (s_tx x); reflexivity). rewrite I.
    assert (P : tx_public (s_tx (norm_stx x)) = tx_public (s_tx x)) by (cbn [norm_stx s_tx]; destruct (s_tx x); reflexivity). rewrite P. reflexivity.
  Qed.
End F.
