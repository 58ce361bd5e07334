(** * WireFacts: the decoders read what the shapes of [SpecWire] describe. *)
From Verif Require Import Base BaseFacts Hex HexFacts Utf8 Cbor Value Ident IdentFacts Crypto Types MapFacts ValueFacts Serde SerdeFacts SpecWire.
From Coq Require Strings.String.
Import String.StringSyntax.
Open Scope list_scope.

(** the decoder [d] together with the form [s] in which its results are written *)
Definition reads {A} (d : D A) (s : A -> cval) (sh : shape) : Prop :=
  forall v w, (exists y, d v = Ok y /\ s y = w) <-> means sh v w.

(** ** Hexadecimal text *)
Lemma hex_value_val c n : hex_value c n <-> hex_val c = Some n.
Proof.
  unfold hex_value, hex_val.
  destruct (N.leb_spec 48 (u8v c)); destruct (N.leb_spec (u8v c) 57); cbn [andb];
  try (split; [intros H1; f_equal; lia|intros H1; injection H1 as <-; lia]);
  destruct (N.leb_spec 65 (u8v c)); destruct (N.leb_spec (u8v c) 70); cbn [andb];
  try (split; [intros H3; f_equal; lia|intros H3; injection H3 as <-; lia]);
  destruct (N.leb_spec 97 (u8v c)); destruct (N.leb_spec (u8v c) 102); cbn [andb];
  try (split; [intros H5; f_equal; lia|intros H5; injection H5 as <-; lia]);
  (split; [intros; lia|discriminate]).
Qed.
Lemma hex_val_lt c n : hex_val c = Some n -> (n < 16)%N.
Proof. intros H. apply hex_value_val in H. unfold hex_value in H. lia. Qed.
Lemma spells_decode s b : spells s b <-> hex_decode s = Some b.
Proof.
  split.
  - induction 1 as [|c d x y b s l X Y B _ IH]; [reflexivity|]. cbn [hex_decode].
    apply hex_value_val in X, Y. rewrite X, Y, IH. f_equal. f_equal. rewrite <- B. apply u8_of_u8v.
  - revert b. induction s as [|a|c d s IH] using pair_ind; intros b; cbn [hex_decode].
    + intros K. injection K as <-. constructor.
    + discriminate.
    + destruct (hex_val c) as [x|] eqn:X; [|discriminate]. destruct (hex_val d) as [y|] eqn:Y; [|discriminate].
      destruct (hex_decode s) as [r|]; [|discriminate]. intros K. injection K as <-.
      pose proof (hex_val_lt _ _ X). pose proof (hex_val_lt _ _ Y).
      apply (sp_byte c d x y); [apply hex_value_val..| |]; auto.
      rewrite u8v_u8_of. apply N.mod_small. lia.
Qed.
Lemma lower_id s : no_capital s <-> map lower s = s.
Proof.
  assert (G : forall c, lower c = c <-> ~ (65 <= u8v c <= 90)%N).
  { intros c. unfold lower. destruct (N.leb_spec 65 (u8v c)), (N.leb_spec (u8v c) 90); cbn [andb];
      (split; [intros E; try (apply (f_equal u8v) in E; rewrite u8v_u8_of, N.mod_small in E); lia|intros; try reflexivity; lia]). }
  unfold no_capital. induction s as [|c s IH]; cbn [map]; split; intros H.
  - reflexivity.
  - intros x [].
  - f_equal; [apply G, H; left; reflexivity|]. apply IH. intros x I. apply H. right. exact I.
  - injection H as H1 H2. intros x [<-|I]; [apply G, H1|]. apply IH; assumption.
Qed.
Lemma hex_canon (t : rstring) b : CText t = hex_text b <-> spells (sv t) b /\ no_capital (sv t).
Proof.
  unfold hex_text. rewrite spells_decode, lower_id. split.
  - intros K. injection K as ->. cbn [sv]. split; [apply hex_decode_encode|].
    rewrite <- (hex_encode_decode _ b); [reflexivity|]. apply hex_decode_encode.
  - intros [A B]. f_equal. apply sub_ext. cbn [sv]. rewrite (hex_encode_decode _ _ A). auto.
Qed.
Lemma hexof_means P v w :
  means (HexOf P) v w <-> exists s b, v = CText s /\ hex_decode (sv s) = Some b /\ P b /\ w = hex_text b.
Proof.
  cbn [means]. split.
  - intros (s & t & b & -> & -> & S & T & L & Q). exists s, b. rewrite <- spells_decode. repeat split; auto. apply hex_canon. auto.
  - intros (s & b & -> & S & Q & ->). unfold hex_text.
    exists s, (mk_sub (hex_encode b) (norm_true (hex_utf8 b))), b. rewrite spells_decode.
    destruct (proj1 (hex_canon (mk_sub (hex_encode b) (norm_true (hex_utf8 b))) b) eq_refl) as [A B]. repeat split; auto.
Qed.
Lemma ok_or_ok {A} (o : option A) y : @ok_or unit A o tt = Ok y <-> o = Some y.
Proof. destruct o; cbn; split; congruence. Qed.
Lemma de_hex_ok v b : de_hex v = Ok b <-> exists s, v = CText s /\ hex_decode (sv s) = Some b.
Proof.
  split.
  - destruct v; cbn; try discriminate. intros H. apply ok_or_ok in H. eauto.
  - intros (s & -> & H). cbn. rewrite H. reflexivity.
Qed.
(** a decoder of hexadecimal text followed by a test *)
Lemma w_hexof {A} (d : D A) (s : A -> bytes) (P : bytes -> Prop) :
  (forall v y, d v = Ok y <-> exists b, de_hex v = Ok b /\ s y = b) -> (forall b, P b <-> exists y, s y = b) ->
  reads d (fun y => hex_text (s y)) (HexOf P).
Proof.
  intros H Q v w. rewrite hexof_means. split.
  - intros (y & E & <-). apply H in E as (b & E & E2). apply de_hex_ok in E as (t & -> & E). exists t, b. repeat split; auto; [|congruence].
    apply Q. eauto.
  - intros (t & b & -> & E & Pb & ->). apply Q in Pb as (y & <-). exists y. split; [|reflexivity]. apply H. exists (s y). split; [|reflexivity].
    apply de_hex_ok. eauto.
Qed.
Lemma w_hex : reads de_hex hex_text (HexOf (fun _ => True)).
Proof.
  change hex_text with (fun y : bytes => hex_text (id y)). apply (w_hexof de_hex id).
  - intros v y. unfold id. split; [eauto|]. intros (b & H & ->). exact H.
  - intros b. split; [exists b; reflexivity|auto].
Qed.
(** a decoder of bytes or hexadecimal text followed by a test *)
Lemma raw_means P v w : means (Raw P) v w <-> exists b, de_raw v = Ok b /\ P b /\ w = CBytes b.
Proof.
  cbn [means]. split.
  - intros (b & -> & Q & [->|(s & -> & S)]); exists b; repeat split; auto. apply spells_decode in S. cbn [de_raw]. rewrite S. reflexivity.
  - intros (b & E & Q & ->). exists b. repeat split; auto. destruct v; try discriminate; cbn [de_raw] in E.
    + injection E as ->. auto.
    + apply ok_or_ok in E. right. exists s. rewrite spells_decode. auto.
Qed.
Lemma w_rawof {A} (d : D A) (s : A -> bytes) (P : bytes -> Prop) :
  (forall v y, d v = Ok y <-> exists b, de_raw v = Ok b /\ s y = b) -> (forall b, P b <-> exists y, s y = b) ->
  reads d (fun y => CBytes (s y)) (Raw P).
Proof.
  intros H Q v w. rewrite raw_means. split.
  - intros (y & E & <-). apply H in E as (b & E & E2). exists b. repeat split; auto; [|congruence]. apply Q. eauto.
  - intros (b & E & Pb & ->). apply Q in Pb as (y & <-). exists y. split; [|reflexivity]. apply H. exists (s y). split; [exact E|reflexivity].
Qed.
Lemma w_raw : reads de_raw CBytes (Raw (fun _ => True)).
Proof.
  intros v w. rewrite raw_means. split.
  - intros (b & E & <-). exists b. auto.
  - intros (b & E & _ & ->). exists b. auto.
Qed.
Lemma w_arr n : reads (de_arr n) (fun a : arr n => CBytes (arr_l a)) (Raw (fun b => length b = n)).
Proof.
  apply (w_rawof (de_arr n) (@arr_l n)).
  - intros v y. unfold de_arr. rewrite bind_ok. split; intros (b & E & H); exists b; (split; [exact E|]).
    + apply ok_or_ok, arr_of_some in H. exact H.
    + apply ok_or_ok, arr_of_some. exact H.
  - intros b. split; [intros H; destruct (arr_of_ex _ _ H) as (a & _ & E); eauto|]. intros (a & <-). apply arr_len.
Qed.

Lemma w_id : reads de_id ser_id identifier.
Proof.
  intros v w. unfold identifier. rewrite hexof_means. unfold ser_id. split.
  - intros (y & E & <-). destruct v; try discriminate. cbn in E. exists s.
    destruct (id_from_str (sv s)) as [i| |] eqn:F; try discriminate. injection E as ->.
    pose proof (id_from_str_ok _ _ F) as G. rewrite id_from_str_spec in F.
    destruct (hex_decode (sv s)) as [b|] eqn:H; [|discriminate]. exists b. split; [reflexivity|]. split; [reflexivity|].
    assert (B : b = id_to_bytes y).
    { apply hex_encode_inj. rewrite (hex_encode_decode _ _ H). symmetry. exact G. }
    subst b. split; [|reflexivity]. split; [apply id_to_bytes_length|].
    unfold id_to_bytes. rewrite app_nth2; rewrite arr_len; [|lia]. cbn [nth Nat.sub].
    destruct (id_type y); vm_compute; split; discriminate.
  - intros (s & b & -> & H & [L T] & ->). cbn [de_id]. rewrite id_from_str_spec, H.
    destruct (split_15_16 _ L) as (e & x & u & Hb & He & Hu & H1 & H2 & H3). rewrite H1, H2, H3, L, Nat.eqb_refl.
    destruct (arr_of_ex _ _ He) as (ea & -> & Ea). destruct (arr_of_ex _ _ Hu) as (ua & -> & Ua).
    assert (X : nth 15 b x00 = x).
    { apply nth_error_nth with (d := x00) in H2. exact H2. }
    rewrite X in T. assert (Y : exists t, tt_of_u8 x = Some t /\ tt_u8 t = x).
    { pose proof (byte_sweep (fun x => negb ((1 <=? u8v x) && (u8v x <=? 10))%N || match tt_of_u8 x with Some t => Byte.eqb (tt_u8 t) x | None => false end)
        ltac:(vm_compute; reflexivity) x) as Q. cbv beta in Q.
      destruct (N.leb_spec 1 (u8v x)); [|lia]. destruct (N.leb_spec (u8v x) 10); [|lia]. cbn [negb andb orb] in Q.
      destruct (tt_of_u8 x) as [t|]; [|discriminate]. exists t. split; [reflexivity|]. apply byte_eqb_eq. exact Q. }
    destruct Y as (t & -> & Y). cbn [map_err]. eexists. split; [reflexivity|]. f_equal. unfold id_to_bytes. cbn [id_election id_type id_unique].
    rewrite Ea, Ua, Y. symmetry. exact Hb.
Qed.
Lemma w_u8 : reads de_u8 ser_u8 (Num 1).
Proof.
  intros v w. cbn [means]. split.
  - intros (y & E & <-). destruct v; try discriminate. cbn in E. destruct (N.ltb_spec (uv n) 256) as [L|L]; [|discriminate].
    injection E as <-. exists n. split; [reflexivity|]. split; [|exact L]. unfold ser_u8. f_equal. rewrite u8v_u8_of, N.mod_small by exact L. apply u_of_uv.
  - intros (n & -> & -> & L). exists (u8_of (uv n)). cbn. change (pow256 1) with 256%N in L. destruct (N.ltb_spec (uv n) 256); [|lia].
    split; [reflexivity|]. unfold ser_u8. f_equal. rewrite u8v_u8_of, N.mod_small by exact L. apply u_of_uv.
Qed.
Lemma w_u k : reads (de_u k) (@ser_u k) (Num k).
Proof.
  intros v w. cbn [means]. split.
  - intros (y & E & <-). destruct v; try discriminate. cbn in E. destruct (N.ltb_spec (uv n) (pow256 k)) as [L|L]; [|discriminate].
    injection E as <-. exists n. split; [reflexivity|]. split; [|exact L]. unfold ser_u. rewrite uv_u_of by exact L. f_equal. apply u_of_uv.
  - intros (n & -> & -> & L). exists (u_of k (uv n)). cbn. destruct (N.ltb_spec (uv n) (pow256 k)); [|lia].
    split; [reflexivity|]. unfold ser_u. rewrite uv_u_of by exact L. f_equal. apply u_of_uv.
Qed.
Lemma w_text : reads de_text CText Text.
Proof.
  intros v w. cbn [means]. split.
  - intros (y & E & <-). destruct v; try discriminate. injection E as <-. eauto.
  - intros (s & -> & ->). exists s. auto.
Qed.
Lemma w_bool : reads de_bool CBool Flag.
Proof.
  intros v w. cbn [means]. split.
  - intros (y & E & <-). destruct v; try discriminate. injection E as <-. eauto.
  - intros (s & -> & ->). exists s. auto.
Qed.
Lemma w_sub P : reads (de_sub P) (@ser_sub P) (Lib P).
Proof.
  intros v w. cbn [means]. unfold de_sub, ser_sub. split.
  - intros (y & E & <-). apply ok_or_ok, sub_of_some in E. subst v. split; [reflexivity|]. apply (s_ok y).
  - intros [-> H]. exists (mk_sub w H). split; [|reflexivity]. apply ok_or_ok, sub_of_some. reflexivity.
Qed.
Lemma w_word {A} (d : D A) (s : A -> rstring) l :
  (forall v y, d v = Ok y <-> v = CText (s y)) -> (forall t, In t l <-> exists y, s y = t) -> reads d (fun y => CText (s y)) (Word l).
Proof.
  intros H L v w. cbn [means]. split.
  - intros (y & E & <-). apply H in E. subst v. exists (s y). split; [|auto]. apply L. eauto.
  - intros (t & I & -> & ->). apply L in I as (y & <-). exists y. split; [|reflexivity]. apply H. reflexivity.
Qed.
Lemma w_ct : reads de_ct (fun c => CText (ct_name c)) (Word contest_types).
Proof.
  apply w_word.
  - intros v y. split; [|intros ->; apply de_ser_ct]. destruct v; try discriminate. cbn [de_ct]. intros E. apply ok_or_ok in E.
    apply find_some in E as [_ E]. apply rs_eqb_eq in E. congruence.
  - intros t. split.
    + intros I. cbn [contest_types In] in I.
      repeat (destruct I as [<-|I]; [first [exists Plurality; reflexivity|exists Score; reflexivity|exists Approval; reflexivity|exists Condorcet; reflexivity
        |exists Borda; reflexivity|exists BordaClassic; reflexivity|exists BordaDowdall; reflexivity|exists BordaModifiedClassic; reflexivity
        |exists SchulzeWinning; reflexivity|exists SchulzeRatio; reflexivity|exists SchulzeMargin; reflexivity]|]).
      destruct I.
    + intros (y & <-). unfold contest_types. destruct y; cbn [In ct_name]; auto 12.
Qed.
(** the text of a UUID *)
Lemma len_split {A} n (l : list A) : n <= length l -> exists a b, l = a ++ b /\ length a = n.
Proof. intros H. exists (firstn n l), (skipn n l). rewrite firstn_skipn, firstn_length. split; [reflexivity|lia]. Qed.
Lemma skip_app {A} n (a b : list A) : length a = n -> skipn n (a ++ b) = b.
Proof. intros <-. rewrite skipn_app, skipn_all, Nat.sub_diag. reflexivity. Qed.
Lemma first_app {A} n (a b : list A) : length a = n -> firstn n (a ++ b) = a.
Proof. intros <-. rewrite firstn_app, firstn_all, Nat.sub_diag, app_nil_r. reflexivity. Qed.
Definition grouped (a b c d e : bytes) : bytes := a ++ x2d :: b ++ x2d :: c ++ x2d :: d ++ x2d :: e.
Definition ungroup (s : bytes) : option bytes :=
  if Nat.eqb (List.length s) 32 then Some s
  else if Nat.eqb (List.length s) 36 && dash s 8 && dash s 13 && dash s 18 && dash s 23
  then Some (firstn 8 s ++ firstn 4 (skipn 9 s) ++ firstn 4 (skipn 14 s) ++ firstn 4 (skipn 19 s) ++ skipn 24 s)
  else None.
Lemma ungroup_of a b c d e : length a = 8 -> length b = 4 -> length c = 4 -> length d = 4 -> length e = 12 ->
  ungroup (grouped a b c d e) = Some (a ++ b ++ c ++ d ++ e).
Proof.
  intros A B C D E.
  do 9 (destruct a as [|? a]; [cbn in A; try lia|]); [|cbn in A; lia].
  do 5 (destruct b as [|? b]; [cbn in B; try lia|]); [|cbn in B; lia].
  do 5 (destruct c as [|? c]; [cbn in C; try lia|]); [|cbn in C; lia].
  do 5 (destruct d as [|? d]; [cbn in D; try lia|]); [|cbn in D; lia].
  do 13 (destruct e as [|? e]; [cbn in E; try lia|]); [|cbn in E; lia].
  reflexivity.
Qed.
Lemma ungroup_some s h : ungroup s = Some h ->
  s = h /\ length s = 32 \/ exists a b c d e, s = grouped a b c d e /\ h = a ++ b ++ c ++ d ++ e
     /\ length a = 8 /\ length b = 4 /\ length c = 4 /\ length d = 4 /\ length e = 12.
Proof.
  unfold ungroup. destruct (Nat.eqb_spec (length s) 32) as [L|_]; [intros K; injection K as <-; auto|].
  destruct (Nat.eqb_spec (length s) 36) as [L|_]; cbn [andb]; [|discriminate]. intros H. right.
  destruct (dash s 8) eqn:D1; cbn [andb] in H; [|discriminate]. destruct (dash s 13) eqn:D2; cbn [andb] in H; [|discriminate].
  destruct (dash s 18) eqn:D3; cbn [andb] in H; [|discriminate]. destruct (dash s 23) eqn:D4; [|discriminate].
  unfold dash in *. apply byte_eqb_eq in D1, D2, D3, D4. injection H as <-.
  do 37 (destruct s as [|? s]; [cbn in L; try lia|]); [|cbn in L; lia].
  cbn [nth] in D1, D2, D3, D4. subst.
  eexists [_; _; _; _; _; _; _; _], [_; _; _; _], [_; _; _; _], [_; _; _; _], [_; _; _; _; _; _; _; _; _; _; _; _].
  repeat split.
Qed.
Lemma urn9 : length (sv (name "urn:uuid:")) = 9.
Proof. reflexivity. Qed.
Lemma grouped_len a b c d e : length (grouped a b c d e) = 4 + length a + length b + length c + length d + length e.
Proof. unfold grouped. rewrite ?app_length; cbn [length]; rewrite ?app_length; cbn [length]; rewrite ?app_length; cbn [length]; rewrite ?app_length; cbn [length]. lia. Qed.
Lemma uuid_parse_eq t : uuid_parse t =
  match ungroup (if Nat.eqb (length t) 45 && bytes_eqb (firstn 9 t) (sv (name "urn:uuid:")) then skipn 9 t else t) with
  | Some h => match hex_decode h with Some b => arr_of 16 b | None => None end
  | None => None
  end.
Proof. reflexivity. Qed.
Lemma uuid_parse_some t (u : uuid) :
  uuid_parse t = Some u <-> exists h, uuid_digits t h /\ spells h (arr_l u).
Proof.
  rewrite uuid_parse_eq. set (urn := sv (name "urn:uuid:")). split.
  - destruct (Nat.eqb (length t) 45 && bytes_eqb (firstn 9 t) urn) eqn:T.
    + apply andb_true_iff in T as [T1 T2]. apply Nat.eqb_eq in T1. apply bytes_eqb_eq in T2.
      destruct (ungroup (skipn 9 t)) as [h|] eqn:G; [|discriminate]. destruct (hex_decode h) as [b|] eqn:B; [|discriminate].
      intros U. apply arr_of_some in U. subst b. exists h. split; [|apply spells_decode, B]. right.
      apply ungroup_some in G as [[_ G]|(x & y & z & p & q & G & H)]; [rewrite skipn_length in G; lia|].
      exists x, y, z, p, q. split; [apply H|]. do 5 (split; [apply H|]). right. rewrite <- (firstn_skipn 9 t), T2. f_equal. exact G.
    + destruct (ungroup t) as [h|] eqn:G; [|discriminate]. destruct (hex_decode h) as [b|] eqn:B; [|discriminate].
      intros U. apply arr_of_some in U. subst b. exists h. split; [|apply spells_decode, B].
      apply ungroup_some in G as [[G _]|(x & y & z & p & q & G & H)]; [left; exact G|]. right.
      exists x, y, z, p, q. split; [apply H|]. do 5 (split; [apply H|]). left. exact G.
  - intros (h & T & S). apply spells_decode in S.
    assert (L : length h = 32) by (rewrite (hex_decode_length _ _ S), arr_len; reflexivity).
    assert (N : forall s, length s <= 36 -> Nat.eqb (length s) 45 && bytes_eqb (firstn 9 s) urn = false).
    { intros s Q. destruct (Nat.eqb_spec (length s) 45); [lia|reflexivity]. }
    destruct T as [->|(x & y & z & p & q & -> & X & Y & Z & P & Q & T)].
    + rewrite N by lia. unfold ungroup. rewrite L. cbn [Nat.eqb]. rewrite S. apply arr_of_arr.
    + fold (grouped x y z p q) in T. cbv zeta in T.
      assert (GL : length (grouped x y z p q) = 36) by (rewrite grouped_len; lia).
      destruct T as [->| ->].
      * rewrite N by lia. rewrite ungroup_of by assumption. rewrite S. apply arr_of_arr.
      * fold urn. rewrite app_length, GL. rewrite (first_app 9) by reflexivity. rewrite (skip_app 9) by reflexivity.
        change (Nat.eqb (length urn + 36) 45) with true. replace (bytes_eqb urn urn) with true by (symmetry; apply bytes_eqb_eq; reflexivity).
        cbn [andb]. rewrite ungroup_of by assumption. rewrite S. apply arr_of_arr.
Qed.
Lemma w_uuid : reads de_uuid (fun u => CBytes (arr_l u)) Uid.
Proof.
  intros v w. cbn [means]. split.
  - intros (u & E & <-). exists (arr_l u). split; [apply arr_len|]. split; [reflexivity|]. destruct v; try discriminate; cbn [de_uuid] in E.
    + apply ok_or_ok, arr_of_some in E. left. congruence.
    + apply ok_or_ok, uuid_parse_some in E as (h & E). right. eauto.
  - intros (b & L & -> & H). destruct (arr_of_ex _ _ L) as (u & U & <-). exists u. split; [|reflexivity].
    destruct H as [->|(s & h & -> & H)]; cbn [de_uuid]; apply ok_or_ok; [exact U|]. apply uuid_parse_some. eauto.
Qed.

(** ** Lists, options and maps *)
Lemma w_list {A} (d : D A) s a : reads d s a -> reads (de_list d) (ser_list s) (Seq a).
Proof.
  intros R v w. cbn [means]. unfold ser_list. split.
  - intros (y & E & <-). destruct v; try discriminate. cbn [de_list] in E. apply map_res_ok in E. exists l, (map s y).
    split; [reflexivity|]. split; [reflexivity|]. induction E as [|x z l y H _ IH]; cbn [map]; constructor; [|exact IH]. apply R. eauto.
  - intros (l & l' & -> & -> & F). cbn [de_list].
    assert (exists y, Forall2 (fun x z => d x = Ok z) l y /\ map s y = l') as (y & Y & E).
    { induction F as [|x z l l' H _ (y & Y & E)]; [exists []; split; constructor|]. apply R in H as (u & U & <-). exists (u :: y).
      split; [constructor; assumption|]. cbn [map]. congruence. }
    exists y. split; [apply map_res_ok, Y|]. congruence.
Qed.
Lemma w_opt {A} (d : D A) s a : reads d s a -> reads (de_opt d) (ser_opt s) (Opt a).
Proof.
  intros R v w. cbn [means]. split.
  - intros (y & E & <-). destruct v; cbn [de_opt] in E; try (apply bind_ok in E as (z & E & K); injection K as <-; right; split; [discriminate|]; apply R; eauto).
    injection E as <-. auto.
  - intros [[-> ->]|[V H]]; [exists None; auto|]. apply R in H as (y & E & <-). exists (Some y). split; [|reflexivity].
    destruct v; cbn [de_opt]; try (rewrite E; reflexivity). congruence.
Qed.

Lemma dict_in (R : cval -> cval -> Prop) m m' : dict R m m' -> forall k, In k (map fst m') <-> In k (map fst m).
Proof.
  induction 1 as [|m m' k v w _ IH _ _|m m1 m2 k u v w _ IH _]; intros x; rewrite ?map_app; cbn [map fst]; rewrite ?in_app_iff; cbn [In].
  - tauto.
  - rewrite IH. tauto.
  - specialize (IH x) as I. rewrite map_app in I. cbn [map fst] in I. rewrite in_app_iff in I. cbn [In] in I. specialize (IH k) as I'.
    rewrite map_app in I'. cbn [map fst] in I'. rewrite in_app_iff in I'. cbn [In] in I'. intuition subst; tauto.
Qed.
Lemma fold_snoc {K V} (eqb : K -> K -> bool) (l : list (K * V)) k v : ibuild eqb (l ++ [(k, v)]) = iput eqb (ibuild eqb l) k v.
Proof. unfold ibuild. rewrite fold_left_app. reflexivity. Qed.
Lemma mem_key_in {K} (eqb : K -> K -> bool) (E : forall a b, eqb a b = true <-> a = b) k l : mem_key eqb k l = true <-> In k l.
Proof.
  induction l as [|x l IH]; cbn [mem_key In]; [split; [discriminate|contradiction]|]. rewrite orb_true_iff, IH, E. intuition congruence.
Qed.
Lemma iput_mid {K V} (eqb : K -> K -> bool) (E : forall a b, eqb a b = true <-> a = b) (l1 l2 : list (K * V)) k u v :
  ~ In k (map fst l1) -> iput eqb (l1 ++ (k, u) :: l2) k v = l1 ++ (k, v) :: l2.
Proof.
  induction l1 as [|[x w] l1 IH]; cbn [app iput map fst In]; intros N.
  - replace (eqb k k) with true by (symmetry; apply E; reflexivity). reflexivity.
  - destruct (eqb k x) eqn:F; [apply E in F; subst; tauto|]. rewrite IH by tauto. reflexivity.
Qed.
Lemma iput_nodup {K V} (eqb : K -> K -> bool) (E : forall a b, eqb a b = true <-> a = b) (l : list (K * V)) k v :
  NoDup (map fst l) -> NoDup (map fst (iput eqb l k v)) /\ (forall x, In x (map fst (iput eqb l k v)) <-> x = k \/ In x (map fst l)).
Proof.
  induction l as [|[x w] l IH]; cbn [iput map fst]; intros N.
  - split; [constructor; [intros []|constructor]|]. intros y. cbn [In]. intuition congruence.
  - inversion N as [|? ? N1 N2]; subst. destruct (eqb k x) eqn:F; cbn [map fst].
    + apply E in F. subst. split; [exact N|]. intros y. cbn [In]. intuition congruence.
    + destruct (IH N2) as [A B]. split.
      * constructor; [|exact A]. rewrite B. intros [->|I]; [|tauto]. assert (eqb k k = true) by (apply E; reflexivity). congruence.
      * intros y. cbn [In]. rewrite B. tauto.
Qed.
Lemma ibuild_nodups {K V} (eqb : K -> K -> bool) (E : forall a b, eqb a b = true <-> a = b) (l : list (K * V)) : NoDup (map fst (ibuild eqb l)).
Proof.
  induction l as [|[k v] l IH] using rev_ind; [constructor|]. rewrite fold_snoc. apply (iput_nodup eqb E), IH.
Qed.
Lemma nodup_nodup_keys {K V} (eqb : K -> K -> bool) (E : forall a b, eqb a b = true <-> a = b) (l : list (K * V)) :
  NoDup (map fst l) -> nodup_keys eqb l = true.
Proof.
  induction l as [|[k v] l IH]; cbn [nodup_keys map fst]; intros N; [reflexivity|]. inversion N; subst. rewrite IH by assumption.
  rewrite andb_true_r. apply negb_true_iff. destruct (mem_key eqb k (map fst l)) eqn:M; [|reflexivity]. apply (mem_key_in eqb E) in M. contradiction.
Qed.

(** [ibuild] is what [dict] describes *)
Section Dict.
  Context {K V : Type} (eqb : K -> K -> bool) (E : forall a b, eqb a b = true <-> a = b).
  Context (kc : K -> cval) (kc_inj : forall a b, kc a = kc b -> a = b) (s : V -> cval) (d : cval -> V -> Prop) (R : cval -> cval -> Prop).
  Let item (p : K * V) : cval * cval := (kc (fst p), s (snd p)).
  Lemma item_keys l : map fst (map item l) = map kc (map fst l).
  Proof. rewrite !map_map. reflexivity. Qed.
  Lemma kc_in k l : In (kc k) (map kc l) <-> In k l.
  Proof. split; [|apply in_map]. intros H. apply in_map_iff in H as (x & H & I). apply kc_inj in H. congruence. Qed.

  Lemma dict_build ps : forall m, (forall p, In p m -> forall w, R (snd p) w <-> exists y, d (snd p) y /\ s y = w) ->
    Forall2 (fun p q => fst p = kc (fst q) /\ d (snd p) (snd q)) m ps -> dict R m (map item (ibuild eqb ps)).
  Proof.
    induction ps as [|[k v] ps IH] using rev_ind; intros m H F; [inversion F; constructor|].
    apply Forall2_app_inv_r in F as (m1 & m2 & F1 & F2 & ->). inversion F2 as [|[a b] ? m3 ? [Q1 Q2] F3]; subst. inversion F3; subst.
    cbn [fst snd] in *. subst a.
    assert (Rb : R b (s v)). { apply (H (kc k, b)); [apply in_app_iff; right; left; reflexivity|]. exists v. auto. }
    assert (IHm : dict R m1 (map item (ibuild eqb ps))). { apply IH; [|exact F1]. intros p I. apply H. apply in_app_iff. auto. }
    rewrite fold_snoc. destruct (mem_key eqb k (map fst (ibuild eqb ps))) eqn:M.
    - apply (mem_key_in eqb E) in M. apply in_map_iff in M as ([k' u] & Q & I). cbn [fst] in Q. subst k'.
      apply in_split in I as (l1 & l2 & I). pose proof (ibuild_nodups eqb E ps) as ND. rewrite I in *. rewrite map_app in ND. cbn [map fst] in ND.
      apply NoDup_remove_2 in ND. rewrite (iput_mid eqb E) by (intros Z; apply ND, in_app_iff; auto).
      rewrite map_app in *. cbn [map item fst snd] in *. apply d_again with (u := s u); assumption.
    - rewrite iput_fresh by exact M. rewrite map_app. cbn [map item fst snd]. apply d_new; [exact IHm| |exact Rb].
      rewrite item_keys, kc_in. intros I. apply (mem_key_in eqb E) in I. cbn [fst] in I. congruence.
  Qed.
  Lemma build_dict m m' : (forall p, In p m -> forall w, R (snd p) w <-> exists y, d (snd p) y /\ s y = w) ->
    (forall p, In p m -> exists k, fst p = kc k) -> dict R m m' ->
    exists ps, Forall2 (fun p q => fst p = kc (fst q) /\ d (snd p) (snd q)) m ps /\ m' = map item (ibuild eqb ps).
  Proof.
    intros H T F. induction F as [|m m' k v w F IH N Q|m m1 m2 k u v w F IH Q].
    - exists []. split; [constructor|reflexivity].
    - destruct IH as (ps & F2 & ->); [intros p I; apply H, in_app_iff; auto|intros p I; apply T, in_app_iff; auto|].
      destruct (T (k, v)) as (kk & Tk); [apply in_app_iff; right; left; reflexivity|]. cbn [fst] in Tk. subst k.
      apply (H (kc kk, v)) in Q as (y & Y & <-); [|apply in_app_iff; right; left; reflexivity]. cbn [snd] in Y.
      exists (ps ++ [(kk, y)]). split; [apply Forall2_app; [exact F2|constructor; [auto|constructor]]|].
      rewrite fold_snoc, iput_fresh; [rewrite map_app; reflexivity|].
      rewrite item_keys, kc_in in N. destruct (mem_key eqb kk _) eqn:M; [|reflexivity]. apply (mem_key_in eqb E) in M. contradiction.
    - destruct IH as (ps & F2 & B); [intros p I; apply H, in_app_iff; auto|intros p I; apply T, in_app_iff; auto|].
      destruct (T (k, v)) as (kk & Tk); [apply in_app_iff; right; left; reflexivity|]. cbn [fst] in Tk. subst k.
      apply (H (kc kk, v)) in Q as (y & Y & <-); [|apply in_app_iff; right; left; reflexivity]. cbn [snd] in Y.
      exists (ps ++ [(kk, y)]). split; [apply Forall2_app; [exact F2|constructor; [auto|constructor]]|].
      rewrite fold_snoc. pose proof (ibuild_nodups eqb E ps) as ND. symmetry in B. apply map_eq_app in B as (l1 & l2 & B & <- & B2).
      rewrite B in *. apply map_eq_cons in B2 as ([k' u'] & l3 & -> & B2 & <-). cbn [item fst snd] in B2. injection B2 as B2 <-. apply kc_inj in B2. subst k'.
      rewrite map_app in ND. cbn [map fst] in ND. apply NoDup_remove_2 in ND.
      rewrite (iput_mid eqb E) by (intros Z; apply ND, in_app_iff; auto). rewrite map_app. reflexivity.
  Qed.
End Dict.
Lemma map_pairs {K V} (kc : K -> cval) (s : V -> cval) l : map (fun '(k, v) => (kc k, s v)) l = map (fun p => (kc (fst p), s (snd p))) l.
Proof. apply map_ext. intros []. reflexivity. Qed.
Lemma w_imap {V} (dv : D V) s a : reads dv s a ->
  reads (de_imap rs_eqb de_text dv) (fun m => CMap (map (fun '(k, v) => (CText k, s v)) (sv m))) (Dict a).
Proof.
  intros R v w. cbn [means].
  assert (Q : forall x y, (let '(a, b) := x in let! k := de_text a in let! u := dv b in Ok (k, u)) = @Ok unit _ y
    <-> fst x = CText (fst y) /\ dv (snd x) = Ok (snd y)).
  { intros [p q] [k u]. rewrite bind_ok. cbn [fst snd]. split.
    - intros (k' & E1 & E2). apply bind_ok in E2 as (u' & E2 & E3). injection E3 as <- <-. split; [|exact E2]. destruct p; try discriminate. injection E1 as <-. reflexivity.
    - intros [-> H]. exists k. split; [reflexivity|]. rewrite H. reflexivity. }
  split.
  - intros (y & E & <-). destruct v; try discriminate. cbn [de_imap] in E. apply bind_ok in E as (ps & E & F). apply map_res_ok in E. apply ok_or_ok, sub_of_some in F.
    exists l. eexists. split; [reflexivity|]. split; [reflexivity|]. rewrite map_pairs, F. split.
    + intros p I. revert p I. clear F. induction E as [|x z l ps H _ IH]; intros p; [intros []|]. apply Q in H as [H _]. intros [<-|I]; eauto.
    + apply (dict_build rs_eqb rs_eqb_eq CText) with (d := fun v y => dv v = Ok y); [congruence|intros p _ u; symmetry; apply R|].
      clear F. induction E as [|x z l ps H _ IH]; constructor; [apply Q, H|exact IH].
  - intros (m & m' & -> & -> & T & H).
    apply (build_dict rs_eqb rs_eqb_eq CText) with (s := s) (d := fun v y => dv v = Ok y) in H as (ps & F & ->);
      [|congruence|intros p _ u; symmetry; apply R|exact T].
    exists (mk_sub (ibuild rs_eqb ps) (ibuild_keys ps)). cbn [de_imap sv]. rewrite map_pairs. split; [|reflexivity].
    apply bind_ok. exists ps. split.
    + apply map_res_ok. clear T. induction F as [|x z l ps H _ IH]; constructor; [apply Q, H|exact IH].
    + apply ok_or_ok, sub_of_some. reflexivity.
Qed.
Lemma ser_u8_inj a b : ser_u8 a = ser_u8 b -> a = b.
Proof.
  unfold ser_u8. intros H. injection H as H. apply u8v_inj. rewrite !N.mod_small in H; [exact H|..];
  (eapply N.lt_trans; [apply u8v_lt|reflexivity]).
Qed.
Lemma w_imap_seq {V} (dv : D V) s a : reads dv s a ->
  reads (de_imap_seq Byte.eqb de_u8 dv) (fun m => CArr (map (fun '(k, v) => CArr [ser_u8 k; s v]) (sv m))) (Pairs (Num 1) a).
Proof.
  intros R v w. cbn [means].
  set (f := fun x => match x with CArr [a; b] => let! k := de_u8 a in let! w := dv b in Ok (k, w) | _ => fail end).
  assert (K1 : forall p k, de_u8 p = Ok k -> p = ser_u8 k).
  { intros p k H. pose proof (proj1 (w_u8 p (ser_u8 k)) (ex_intro _ k (conj H eq_refl))) as (n & -> & -> & _). reflexivity. }
  assert (Q : forall x y, f x = @Ok unit _ y <-> exists b, x = CArr [ser_u8 (fst y); b] /\ dv b = Ok (snd y)).
  { intros x [k u]. cbn [fst snd]. split.
    - unfold f. destruct x; try discriminate. destruct l as [|p [|q [|]]]; try discriminate. intros E1. apply bind_ok in E1 as (k' & E1 & E2).
      apply bind_ok in E2 as (u' & E2 & E3). injection E3 as <- <-. apply K1 in E1. subst p. eauto.
    - intros (b & -> & H). unfold f. rewrite de_ser_u8. cbn [bind]. rewrite H. reflexivity. }
  assert (M : forall l : list (byte * V), map (fun '(k, v) => CArr [ser_u8 k; s v]) l
     = map (fun p => CArr [fst p; snd p]) (map (fun p => (ser_u8 (fst p), s (snd p))) l)).
  { intros l. rewrite map_map. apply map_ext. intros []. reflexivity. }
  assert (N1 : forall k : byte, exists n, ser_u8 k = CUint n /\ ser_u8 k = ser_u8 k /\ (uv n < pow256 1)%N).
  { intros k. unfold ser_u8. eexists. split; [reflexivity|]. split; [reflexivity|]. rewrite uv_u_of.
    - apply u8v_lt.
    - eapply N.lt_trans; [apply u8v_lt|reflexivity]. }
  split.
  - intros (y & E & <-). destruct v; try discriminate. cbn [de_imap_seq] in E. fold f in E. apply bind_ok in E as (ps & E & F). apply map_res_ok in E. apply ok_or_ok, sub_of_some in F.
    assert (exists m, l = map (fun p => CArr [fst p; snd p]) m /\ Forall2 (fun p q => fst p = ser_u8 (fst q) /\ dv (snd p) = Ok (snd q)) m ps) as (m & -> & G).
    { clear F. induction E as [|x z l ps H _ (m & -> & G)]; [exists []; split; [reflexivity|constructor]|]. apply Q in H as (b & -> & H).
      exists ((ser_u8 (fst z), b) :: m). split; [reflexivity|]. constructor; [auto|exact G]. }
    exists m. rewrite M, F. eexists. split; [reflexivity|]. split; [reflexivity|]. split.
    + intros p I. clear F E. induction G as [|x z m ps [H _] _ IH]; [destruct I|]. destruct I as [<-|I]; [|auto]. rewrite H.
      destruct (N1 (fst z)) as (n & A & _ & B). exists n. rewrite <- A. auto.
    + apply (dict_build Byte.eqb byte_eqb_eq ser_u8) with (d := fun v y => dv v = Ok y); [apply ser_u8_inj|intros p _ u; symmetry; apply R|exact G].
  - intros (m & m' & -> & -> & T & H).
    apply (build_dict Byte.eqb byte_eqb_eq ser_u8) with (s := s) (d := fun v y => dv v = Ok y) in H as (ps & F & ->);
      [|apply ser_u8_inj|intros p _ u; symmetry; apply R|].
    2:{ intros p I. destruct (proj2 (w_u8 _ _) (T p I)) as (k & K & _). apply K1 in K. eauto. }
    exists (mk_sub (ibuild Byte.eqb ps) (nodup_nodup_keys _ byte_eqb_eq _ (ibuild_nodups _ byte_eqb_eq ps))). cbn [de_imap_seq sv]. rewrite M. split; [|reflexivity].
    fold f. apply bind_ok. exists ps. split.
    + apply map_res_ok. clear T. induction F as [|x z l ps [H1 H2] _ IH]; cbn [map]; constructor; [|exact IH]. apply Q. rewrite H1. eauto.
    + apply ok_or_ok, sub_of_some. reflexivity.
Qed.

(** ** Decimal numbers *)
Lemma dig_digit c : dig c <-> digit c = true.
Proof. unfold dig, digit, in_range. rewrite andb_true_iff, !N.leb_le. tauto. Qed.
Lemma digits_all l : (forall c, In c l -> dig c) <-> forallb digit l = true.
Proof. rewrite forallb_forall. split; intros H c I; [apply dig_digit|apply dig_digit in I || idtac]; auto. apply dig_digit. auto. Qed.
Lemma some_digits_iff l : some_digits l <-> l <> [] /\ forallb digit l = true.
Proof. unfold some_digits. rewrite digits_all. tauto. Qed.
Lemma whole_scan i r : whole i -> ends r = true -> scan_int (i ++ r) = Some (i, r).
Proof.
  intros [D Z] R. apply some_digits_iff in D as [N D]. unfold scan_int. rewrite (digits_app _ _ D R).
  destruct i as [|b d]; [congruence|]. destruct (Byte.eqb b x30) eqn:B; cbn [andb]; [|reflexivity]. apply beq in B. subst b.
  cbn [hd] in Z. specialize (Z eq_refl). injection Z as ->. reflexivity.
Qed.
Lemma scan_whole l i r : scan_int l = Some (i, r) -> l = i ++ r /\ whole i.
Proof.
  intros H. pose proof (scan_int_spec _ _ _ H) as (-> & D & N & _). split; [reflexivity|]. split; [apply some_digits_iff; auto|].
  unfold scan_int in H. destruct (digits (i ++ r)) as [d r0] eqn:E. destruct (digits_spec _ _ _ E) as (S & _ & _).
  destruct d as [|b d]; [discriminate|]. destruct (Byte.eqb b x30 && negb (Nat.eqb (length d) 0)) eqn:Q; [discriminate|]. injection H as <- <-.
  cbn [hd]. intros ->. cbn [Byte.eqb Byte.to_bits] in Q. destruct d; [reflexivity|]. vm_compute in Q. discriminate.
Qed.
Lemma exp_ends l k r : exponent l k -> stops r = true ->
  ends (l ++ r) = true /\ scan_frac (l ++ r) = Some ([], l ++ r) /\ scan_exp (l ++ r) = Some (k, r).
Proof.
  intros [[-> ->]|(e & g & d & He & Hg & D & -> & ->)] R.
  - split; [apply stops_ends, R|]. cbn [app]. destruct r as [|b r]; [auto|]. apply stops_cons in R as (_ & R1 & R2 & R3).
    unfold scan_frac, scan_exp. rewrite R1, R2, R3. auto.
  - apply some_digits_iff in D as [N D]. split; [destruct He as [->| ->]; reflexivity|]. split; [destruct He as [->| ->]; reflexivity|].
    change ((e :: g ++ d) ++ r) with (e :: (g ++ d) ++ r). rewrite <- app_assoc.
    assert (S : scan_sign (g ++ d ++ r) = (match g with [x2d] => g | _ => [] end, d ++ r)).
    { destruct Hg as [->|[->| ->]]; try reflexivity. cbn [app]. destruct d as [|b d]; [congruence|]. cbn [forallb] in D. apply andb_true_iff in D as [D _].
      cbn [app]. unfold scan_sign. rewrite !(digit_neq b) by (exact D || reflexivity). reflexivity. }
    unfold scan_exp. rewrite S. replace (Byte.eqb e x65 || Byte.eqb e x45) with true by (destruct He as [->| ->]; reflexivity).
    rewrite (digits_app d r D (stops_ends _ R)). destruct d; [congruence|reflexivity].
Qed.
Lemma number_scan s t r : number s t -> stops r = true -> exists u, scan_num (s ++ r) = Some (u, r) /\ num_norm u = t.
Proof.
  intros (g & i & f & e & k & G & I & F & X & -> & T) R.
  destruct (exp_ends _ _ r X R) as (X1 & X2 & X3).
  assert (FF : ends (f ++ e ++ r) = true /\ scan_frac (f ++ e ++ r) = Some (f, e ++ r)).
  { destruct F as [->|(d & -> & D)]; [auto|]. apply some_digits_iff in D as [N D]. split; [reflexivity|].
    change ((x2e :: d) ++ e ++ r) with (x2e :: d ++ e ++ r). unfold scan_frac. change (Byte.eqb x2e x2e) with true. cbv iota.
    rewrite (digits_app _ _ D X1). destruct d; [congruence|reflexivity]. }
  destruct FF as [F1 F2]. exists (g ++ i ++ f ++ k). split.
  - replace ((g ++ i ++ f ++ e) ++ r) with (g ++ i ++ f ++ e ++ r) by (rewrite <- !app_assoc; reflexivity).
    assert (M : scan_minus (g ++ i ++ f ++ e ++ r) = (g, i ++ f ++ e ++ r)).
    { destruct G as [->| ->]; [|reflexivity]. cbn [app]. destruct I as [D _]. apply some_digits_iff in D as [N D]. destruct i as [|b i]; [congruence|].
      cbn [forallb] in D. apply andb_true_iff in D as [D _]. cbn [app]. unfold scan_minus. rewrite (digit_neq b) by (exact D || reflexivity). reflexivity. }
    unfold scan_num. rewrite M, (whole_scan _ _ I F1), F2, X3. reflexivity.
  - unfold num_norm. destruct (bytes_eqb (g ++ i ++ f ++ k) [x2d; x30]) eqn:B.
    + apply bytes_eqb_eq in B. destruct T as [[_ ->]|[T _]]; [reflexivity|contradiction].
    + destruct T as [[T _]|[_ ->]]; [|reflexivity]. apply bytes_eqb_eq in T. congruence.
Qed.
Lemma scan_number l u r : scan_num l = Some (u, r) -> exists s, l = s ++ r /\ number s (num_norm u).
Proof.
  unfold scan_num. destruct (scan_minus l) as [g l0] eqn:M.
  assert (G : (g = [] \/ g = [x2d]) /\ l = g ++ l0).
  { unfold scan_minus in M. destruct l as [|b l]; [injection M as <- <-; auto|].
    destruct (Byte.eqb b x2d) eqn:E; injection M as <- <-; [apply beq in E; subst|]; auto. }
  destruct G as [G ->].
  destruct (scan_int l0) as [[i l1]|] eqn:I; [|discriminate]. apply scan_whole in I as (-> & I).
  destruct (scan_frac l1) as [[f l2]|] eqn:F; [|discriminate]. apply scan_frac_spec in F.
  destruct (scan_exp l2) as [[e l3]|] eqn:E; [|discriminate]. intros K. injection K as <- ->.
  assert (F0 : fraction f /\ l1 = f ++ l2).
  { destruct F as [(-> & ->)|(d & -> & -> & D & N)]; [split; [left|]; reflexivity|]. split; [right; exists d; split; [reflexivity|]; apply some_digits_iff; auto|reflexivity]. }
  destruct F0 as [F0 ->].
  assert (X : exists x, l2 = x ++ r /\ exponent x e).
  { unfold scan_exp in E. destruct l2 as [|c l]; [injection E as <- <-; exists []; split; [|left]; auto|].
    destruct (Byte.eqb c x65 || Byte.eqb c x45) eqn:C; [|injection E as <- <-; exists []; split; [|left]; auto].
    destruct (scan_sign l) as [g1 r1] eqn:S.
    destruct (digits r1) as [d r0] eqn:Q. destruct (digits_spec _ _ _ Q) as (-> & D & _). destruct d as [|b d]; [discriminate|]. injection E as <- ->.
    apply orb_true_iff in C. rewrite !beq in C.
    assert (Y : exists x, l = x ++ (b :: d) ++ r /\ (x = [] \/ x = [x2b] \/ x = [x2d]) /\ g1 = match x with [x2d] => x | _ => [] end).
    { unfold scan_sign in S. destruct l as [|a l]; [discriminate|]. destruct (Byte.eqb a x2b) eqn:A.
      - injection S as <- ->. apply beq in A. subst a. exists [x2b]. auto.
      - destruct (Byte.eqb a x2d) eqn:A2; [injection S as <- S|injection S as <- S1 S2].
        + apply beq in A2. subst a l. exists [x2d]. auto.
        + subst a l. exists []. auto. }
    destruct Y as (x & -> & Hx & ->). exists (c :: x ++ b :: d). split; [cbn [app]; rewrite <- app_assoc; reflexivity|]. right.
    exists c, x, (b :: d). split; [exact C|]. split; [exact Hx|]. split; [apply some_digits_iff; split; [discriminate|exact D]|auto]. }
  destruct X as (x & -> & X). exists (g ++ i ++ f ++ x). split; [rewrite <- !app_assoc; reflexivity|].
  exists g, i, f, x, e. split; [exact G|]. split; [exact I|]. split; [exact F0|]. split; [exact X|]. split; [reflexivity|].
  unfold num_norm. destruct (bytes_eqb (g ++ i ++ f ++ e) [x2d; x30]) eqn:B.
  - apply bytes_eqb_eq in B. auto.
  - right. split; [|reflexivity]. intros Q. apply bytes_eqb_eq in Q. congruence.
Qed.
Lemma number_num_of s t : number s t <-> num_of s = Some t.
Proof.
  unfold num_of. split; intros H.
  - destruct (number_scan s t [] H eq_refl) as (u & E & <-). rewrite app_nil_r in E. rewrite E. reflexivity.
  - destruct (scan_num s) as [[u [|]]|] eqn:S; try discriminate. injection H as <-. apply scan_number in S as (x & -> & H). rewrite app_nil_r. exact H.
Qed.

Lemma worth_undec l : forall a, worth a l = fold_left (fun a b => 10 * a + (u8v b - 48))%N l a.
Proof. induction l as [|c l IH]; intros a; cbn [worth fold_left]; [reflexivity|apply IH]. Qed.
Lemma worth0 l : worth 0 l = undec l.
Proof. apply worth_undec. Qed.
Lemma undec_nz l : forall a, a <> 0%N -> fold_left (fun a b => 10 * a + (u8v b - 48))%N l a <> 0%N.
Proof. induction l as [|c l IH]; intros a H; cbn [fold_left]; [exact H|]. apply IH. lia. Qed.
Lemma whole_snoc l c : whole (l ++ [c]) -> l = [] \/ whole l /\ undec l <> 0%N.
Proof.
  intros [[_ D] Z]. destruct l as [|b l]; [auto|]. right. cbn [app hd] in Z.
  assert (B : b <> x30). { intros ->. specialize (Z eq_refl). destruct l; discriminate. }
  split; [split; [split; [discriminate|intros x I; apply D; apply in_app_iff; auto]|cbn [hd]; congruence]|].
  unfold undec. cbn [fold_left]. apply undec_nz. specialize (D b (or_introl eq_refl)). unfold dig in D.
  intros Q. apply B. apply u8v_inj. change (u8v x30) with 48%N. lia.
Qed.
Lemma whole_unique l : forall m, whole l -> whole m -> undec l = undec m -> l = m.
Proof.
  induction l as [|c l IH] using rev_ind; intros m L M E; [destruct L as [[L _] _]; congruence|].
  destruct m as [|d m _] using rev_ind; [destruct M as [[M _] _]; congruence|].
  rewrite !undec_app in E.
  assert (C : dig c) by (apply L; apply in_app_iff; right; left; reflexivity).
  assert (D : dig d) by (apply M; apply in_app_iff; right; left; reflexivity). unfold dig in *.
  assert (undec l = undec m) by lia. assert (c = d) by (apply u8v_inj; lia). subst d. f_equal.
  apply whole_snoc in L as [->|[L L0]]; apply whole_snoc in M as [->|[M M0]]; auto; change (undec []) with 0%N in *; congruence.
Qed.
Lemma dec_whole n : (n < 10 ^ 20)%N -> whole (dec_fuel 20 n).
Proof. intros H. apply dec20_ok, scan_whole in H. tauto. Qed.
Lemma numeral_dec l n : (n < 10 ^ 20)%N -> numeral l n <-> l = dec_fuel 20 n.
Proof.
  intros B. unfold numeral. rewrite worth0. split.
  - intros [W E]. apply whole_unique; [exact W|apply dec_whole, B|]. rewrite undec_dec; assumption.
  - intros ->. split; [apply dec_whole, B|]. apply undec_dec. exact B.
Qed.
Lemma reserved_token : reserved = token.
Proof. reflexivity. Qed.
Lemma num_text_iff s j : num_text s = Some j <-> exists t, j = JNum t /\ sv t = s.
Proof. split; [apply num_text_some|]. intros (t & -> & <-). apply num_text_ok. Qed.
Lemma num_from_iff s j : num_from s = Some j <-> exists t, j = JNum t /\ number s (sv t).
Proof.
  unfold num_from. split.
  - destruct (num_of s) as [t|] eqn:E; [|discriminate]. intros H. apply num_text_some in H as (u & -> & <-). exists u. split; [reflexivity|]. apply number_num_of, E.
  - intros (t & -> & H). apply number_num_of in H. rewrite H. apply num_text_ok.
Qed.
Lemma all_some_iff {A} (l : list (option A)) r : all_some l = Some r <-> Forall2 (fun o a => o = Some a) l r.
Proof.
  split; [apply all_some_inv|]. induction 1 as [|o a l r -> _ IH]; [reflexivity|]. cbn [all_some]. rewrite IH. reflexivity.
Qed.
Lemma Forall2_map_l {A B X} (f : A -> B) (P : B -> X -> Prop) l r : Forall2 P (map f l) r <-> Forall2 (fun a => P (f a)) l r.
Proof.
  revert r. induction l as [|a l IH]; intros r; cbn [map]; split; intros H; inversion H; subst; constructor; auto; apply IH; assumption.
Qed.
(** the two kinds of maps, both ways *)
Lemma de_map_iff l j : de_jval (CMap l) = Some j <->
  (exists s, l = [(CText token, CText s)] /\ num_from (sv s) = Some j)
  \/ (exists ps, Forall2 (fun p q => fst p = CText (fst q) /\ de_jval (snd p) = Some (snd q)) l ps
        /\ match ps with (k, _) :: _ => rs_eqb k token = false | [] => True end /\ j = JObj (ibuild rs_eqb ps)).
Proof.
  split; [apply de_map_cases|]. intros [(s & -> & H)|(ps & F & T & ->)].
  - cbn [de_jval]. rewrite rs_eqb_refl. exact H.
  - rewrite de_map_obj.
    + rewrite (proj2 (all_some_iff _ ps)); [reflexivity|]. rewrite Forall2_map_l.
      clear T. induction F as [|[a b] [k u] l ps [H1 H2] _ IH]; constructor; [|exact IH]. cbn [fst snd] in *. subst a. cbn [de_key_text]. rewrite H2. reflexivity.
    + destruct F as [|[a b] [k u] l ps [H1 H2] _]; [exact I|]. cbn [fst] in H1. subst a. exact T.
Qed.
Lemma json_jval v : forall w, json v w <-> exists j, de_jval v = Some j /\ ser_jval j = w.
Proof.
  induction v as [n|n|b|s|b| |n|n|l IH|l IH] using cval_ind2; intros w.
  - split.
    + intros H. inversion H as [| | |n' t N| | | |]; subst. exists (JNum t). split; [|reflexivity]. cbn [de_jval].
      apply num_text_iff. exists t. split; [reflexivity|]. apply numeral_dec in N; [exact N|]. apply big20. pose proof (u64_lt n). lia.
    + intros (j & H & <-). cbn [de_jval] in H. apply num_text_iff in H as (t & -> & H). apply j_natural. apply numeral_dec; [|exact H].
      apply big20. pose proof (u64_lt n). lia.
  - split.
    + intros H. inversion H as [| | | |n' t l B S N| | |]; subst. exists (JNum t). split; [|reflexivity]. cbn [de_jval].
      destruct (N.ltb_spec (uv n) (2 ^ 63)); [|lia]. apply num_text_iff. exists t. split; [reflexivity|]. eapply eq_trans; [exact S|]. unfold neg_text. f_equal.
      apply numeral_dec in N; [exact N|]. apply big20. pose proof (u64_lt n). lia.
    + intros (j & H & <-). cbn [de_jval] in H. destruct (N.ltb_spec (uv n) (2 ^ 63)); [|discriminate]. apply num_text_iff in H as (t & -> & H).
      eapply j_negative; [assumption|exact H|]. apply numeral_dec; [|reflexivity]. apply big20. pose proof (u64_lt n). lia.
  - split; [intros H; inversion H|intros (j & H & _); discriminate].
  - split; [intros H; inversion H; subst; exists (JStr s); auto|]. intros (j & H & <-). injection H as <-. constructor.
  - split; [intros H; inversion H; subst; exists (JBool b); auto|]. intros (j & H & <-). injection H as <-. constructor.
  - split; [intros H; inversion H; subst; exists JNull; auto|]. intros (j & H & <-). injection H as <-. constructor.
  - split; [intros H; inversion H|intros (j & H & _); discriminate].
  - split; [intros H; inversion H|intros (j & H & _); discriminate].
  - rewrite Forall_forall in IH. split.
    + intros H. inversion H as [| | | | | |l1 l' F|]; subst.
      assert (exists js, Forall2 (fun a j => de_jval a = Some j) l js /\ map ser_jval js = l') as (js & F2 & <-).
      { clear H. induction F as [|a b l l' H F IHF]; [exists []; split; [constructor|reflexivity]|].
        apply IH in H as (j & H & <-); [|left; reflexivity]. destruct IHF as (js & F2 & <-); [intros x I; apply IH; right; exact I|].
        exists (j :: js). split; [constructor; assumption|reflexivity]. }
      exists (JArr js). split; [|reflexivity]. cbn [de_jval]. rewrite (proj2 (all_some_iff _ js)); [reflexivity|]. apply Forall2_map_l. exact F2.
    + intros (j & H & <-). cbn [de_jval] in H. destruct (all_some (map de_jval l)) as [r|] eqn:E; [|discriminate]. injection H as <-.
      apply all_some_iff, Forall2_map_l in E. cbn [ser_jval]. constructor.
      induction E as [|a j l r H _ IHE]; cbn [map]; constructor; [apply IH; [left; reflexivity|eauto]|]. apply IHE. intros x I. apply IH. right. exact I.
  - rewrite Forall_forall in IH.
    assert (IH' : forall p, In p l -> forall w, json (snd p) w <-> exists j, de_jval (snd p) = Some j /\ ser_jval j = w) by (intros p I; apply (IH p I)).
    assert (SER : forall ps, ser_jval (JObj ps) = CMap (map (fun p => (CText (fst p), ser_jval (snd p))) ps)).
    { intros ps. cbn [ser_jval]. f_equal. apply map_ext. intros []. reflexivity. }
    split.
    + intros H. inversion H as [| | | | |s t N| |m m' T RS D]; subst.
      * exists (JNum t). split; [|reflexivity]. apply de_map_iff. left. exists s. split; [reflexivity|]. apply num_from_iff. eauto.
      * apply (build_dict rs_eqb rs_eqb_eq CText) with (s := ser_jval) (d := fun v y => de_jval v = Some y) in D as (ps & F & ->);
          [|congruence|exact IH'|exact T].
        exists (JObj (ibuild rs_eqb ps)). split; [|apply SER]. apply de_map_iff. right. exists ps. split; [exact F|]. split; [|reflexivity].
        destruct F as [|[a b] [k u] l ps [H1 H2] _]; [exact I|]. cbn [fst] in H1. subst a.
        destruct (rs_eqb k token) eqn:Q; [|reflexivity]. apply rs_eqb_eq in Q. subst k. exfalso. apply (RS b l). reflexivity.
    + intros (j & H & <-). apply de_map_iff in H as [(s & -> & H)|(ps & F & T & ->)].
      * apply num_from_iff in H as (t & -> & H). apply j_number. exact H.
      * rewrite SER. apply j_object.
        -- intros p I. clear T IH IH'. induction F as [|x z l ps [H _] _ IHF]; [destruct I|]. destruct I as [<-|I]; eauto.
        -- intros v r ->. inversion F as [|? [k u] ? ? [H1 _] _]; subst. cbn [fst] in H1. injection H1 as <-. rewrite reserved_token, rs_eqb_refl in T. discriminate.
        -- apply (dict_build rs_eqb rs_eqb_eq CText) with (d := fun v y => de_jval v = Some y); [congruence|exact IH'|exact F].
Qed.
Lemma w_value : reads de_value ser_value Json.
Proof.
  intros v w. cbn [means]. rewrite json_jval. split.
  - intros (y & E & <-). unfold de_value in E. destruct (de_jval v) as [j|]; [|discriminate]. apply ok_or_ok, sub_of_some in E. subst j.
    exists (sv y). auto.
  - intros (j & H & <-). apply de_value_total in H as (x & H & <-). exists x. auto.
Qed.
Lemma w_props : reads de_props ser_props data.
Proof. apply w_imap, w_value. Qed.

(** ** Structs *)
Lemma absent_lookup k m : absent k m <-> lookup k m = [].
Proof.
  unfold absent, lookup. induction m as [|[a b] m IH]; cbn [filter map]; [split; [reflexivity|intros _ v []]|].
  unfold key_is at 1. cbn [fst]. destruct a; try (rewrite <- IH; split; intros H v I; [apply (H v); right; exact I|destruct I as [I|I]; [discriminate|apply (H v I)]]).
  destruct (rs_eqb k s) eqn:E.
  - apply rs_eqb_eq in E. subst s. cbn [map]. split; [intros H; exfalso; apply (H b); left; reflexivity|discriminate].
  - rewrite <- IH. split; intros H v I; [apply (H v); right; exact I|]. destruct I as [I|I]; [|apply (H v I)]. injection I as -> ->. rewrite rs_eqb_refl in E. discriminate.
Qed.
Lemma once_lookup k m v : once k m v <-> lookup k m = [v].
Proof.
  split.
  - intros (m1 & m2 & -> & A). apply absent_lookup in A. rewrite lookup_app in A. apply app_eq_nil in A as [A1 A2].
    rewrite lookup_app, A1, lookup_cons, rs_eqb_refl, A2. reflexivity.
  - revert v. induction m as [|[a b] m IH]; intros v H; [discriminate|].
    assert (C : (a = CText k /\ b = v /\ lookup k m = []) \/ ((forall s, a = CText s -> s <> k) /\ lookup k m = [v])).
    { unfold lookup in H. cbn [filter] in H. destruct (key_is k (a, b)) eqn:E; unfold key_is in E; cbn [fst] in E.
      - destruct a; try discriminate. apply rs_eqb_eq in E. subst s. cbn [map snd] in H. left. split; [reflexivity|]. unfold lookup. injection H as -> ->. auto.
      - right. split; [|exact H]. intros s -> ->. rewrite rs_eqb_refl in E. discriminate. }
    destruct C as [(-> & -> & C)|[C1 C2]].
    + exists [], m. split; [reflexivity|]. apply absent_lookup, C.
    + apply IH in C2 as (m1 & m2 & -> & A). exists ((a, b) :: m1), m2. split; [reflexivity|]. intros x [I|I]; [|apply (A x I)].
      injection I as -> _. apply (C1 k); reflexivity.
Qed.
Lemma must_iff {A} (d : D A) s a k m h : reads d s a -> field (means a) k Must m h <-> exists x, req d k m = Ok x /\ h = [(CText k, s x)].
Proof.
  intros R. cbn [field]. split.
  - intros (v & w & O & H & ->). apply once_lookup in O. apply R in H as (x & H & <-). exists x. split; [|reflexivity]. unfold req. rewrite O. exact H.
  - intros (x & H & ->). unfold req in H. destruct (lookup k m) as [|v [|]] eqn:O; try discriminate. exists v, (s x). rewrite once_lookup. split; [exact O|].
    split; [|reflexivity]. apply R. eauto.
Qed.
Lemma may_iff {A} (d : D A) s a k m h x0 c : reads d s a -> s x0 = c ->
  field (means a) k (May c) m h <-> exists x, dflt d x0 k m = Ok x /\ h = [(CText k, s x)].
Proof.
  intros R <-. cbn [field]. split.
  - intros [[O ->]|(v & w & O & H & ->)].
    + apply absent_lookup in O. exists x0. unfold dflt. rewrite O. auto.
    + apply once_lookup in O. apply R in H as (x & H & <-). exists x. split; [|reflexivity]. unfold dflt. rewrite O. exact H.
  - intros (x & H & ->). unfold dflt in H. destruct (lookup k m) as [|v [|]] eqn:O; try discriminate.
    + injection H as <-. left. rewrite absent_lookup. auto.
    + right. exists v, (s x). rewrite once_lookup. split; [exact O|]. split; [|reflexivity]. apply R. eauto.
Qed.
Lemma unused_iff {A} (d : D A) s a k m h x0 : reads d s a ->
  field (means a) k Unused m h <-> exists x, dflt d x0 k m = Ok x /\ h = [].
Proof.
  intros R. cbn [field]. split.
  - intros [[O|(v & w & O & H)] ->].
    + apply absent_lookup in O. exists x0. unfold dflt. rewrite O. auto.
    + apply once_lookup in O. apply R in H as (x & H & <-). exists x. split; [|reflexivity]. unfold dflt. rewrite O. exact H.
  - intros (x & H & ->). split; [|reflexivity]. unfold dflt in H. destruct (lookup k m) as [|v [|]] eqn:O; try discriminate.
    + left. apply absent_lookup, O.
    + right. exists v, (s x). rewrite once_lookup. split; [exact O|]. apply R. eauto.
Qed.
Lemma props_empty p : ser_props p = CMap [] <-> sv p = [].
Proof. unfold ser_props. destruct (sv p) as [|[]]; cbn [map]; split; congruence. Qed.
Lemma skip_cases k p : sv p = [] /\ skip_empty k p = [] \/ sv p <> [] /\ skip_empty k p = [(CText k, ser_props p)].
Proof. unfold skip_empty. destruct (sv p) eqn:E; [left; auto|right; split; [discriminate|reflexivity]]. Qed.
Lemma nonempty_iff k m h :
  field (means data) k NonEmpty m h <-> exists p, dflt de_props no_props k m = Ok p /\ h = skip_empty k p.
Proof.
  pose proof w_props as R. cbn [field]. split.
  - intros [[[O|(v & O & H)] ->]|[(v & w & O & H & ->) N]].
    + apply absent_lookup in O. exists no_props. unfold dflt. rewrite O. auto.
    + apply once_lookup in O. apply R in H as (p & H & E). apply props_empty in E. exists p. unfold dflt. rewrite O. split; [exact H|].
      destruct (skip_cases k p) as [[_ ->]|[Q _]]; [reflexivity|congruence].
    + apply once_lookup in O. apply R in H as (p & H & <-). exists p. unfold dflt. rewrite O. split; [exact H|].
      destruct (skip_cases k p) as [[Q _]|[_ ->]]; [|reflexivity]. apply props_empty in Q. rewrite Q in N. congruence.
  - intros (p & H & ->). unfold dflt in H. destruct (lookup k m) as [|v [|]] eqn:O; try discriminate.
    + injection H as <-. left. rewrite absent_lookup. auto.
    + destruct (skip_cases k p) as [[Q ->]|[Q ->]].
      * left. split; [|reflexivity]. right. exists v. rewrite once_lookup. split; [exact O|]. apply R. exists p. split; [exact H|]. apply props_empty, Q.
      * right. split; [exists v, (ser_props p); rewrite once_lookup; split; [exact O|]; split; [apply R; eauto|reflexivity]|].
        intros K. injection K as K. destruct (sv p); [congruence|discriminate K].
Qed.

Fixpoint rows (fs : list (rstring * mode * shape)) (m m' : list (cval * cval)) : Prop :=
  match fs with
  | [] => m' = []
  | (k, o, a) :: r => exists h m1, m' = h ++ m1 /\ field (means a) k o m h /\ rows r m m1
  end.
Lemma rec_rows fs v w : means (Rec fs) v w <-> exists m m', v = CMap m /\ w = CMap m' /\ rows fs m m'.
Proof.
  cbn [means]. split; intros (m & m' & -> & -> & H); exists m, m'; (split; [reflexivity|]; split; [reflexivity|]); revert m' H;
    induction fs as [|[[k o] a] fs IH]; cbn [rows]; intros m'; try (intros H; exact H);
    intros (h & m1 & -> & F & H); exists h, m1; (split; [reflexivity|]; split; [exact F|apply IH; exact H]).
Qed.
Lemma w_struct {A} (f : list (cval * cval) -> res unit A) (s : A -> cval) fs :
  (forall y, exists l, s y = CMap l) -> (forall m m', (exists y, f m = Ok y /\ s y = CMap m') <-> rows fs m m') -> reads (de_struct f) s (Rec fs).
Proof.
  intros S H v w. rewrite rec_rows. split.
  - intros (y & E & <-). destruct v; try discriminate. destruct (S y) as (m' & M). exists l, m'. rewrite M. split; [reflexivity|]. split; [reflexivity|].
    apply H. eauto.
  - intros (m & m' & -> & -> & R). apply H in R. exact R.
Qed.
Section Rows.
  Context {A : Type} (d : D A) (s : A -> cval) (a : shape).
  Lemma rows_must k x e m m1 r : reads d s a -> req d k m = Ok x -> e = s x -> rows r m m1 -> rows ((k, Must, a) :: r) m ((CText k, e) :: m1).
  Proof. intros R H -> Q. exists [(CText k, s x)], m1. split; [reflexivity|]. split; [|exact Q]. apply (must_iff d s a); eauto. Qed.
  Lemma rows_may k x x0 c e m m1 r : reads d s a -> dflt d x0 k m = Ok x -> s x0 = c -> e = s x -> rows r m m1 -> rows ((k, May c, a) :: r) m ((CText k, e) :: m1).
  Proof. intros R H C -> Q. exists [(CText k, s x)], m1. split; [reflexivity|]. split; [|exact Q]. apply (may_iff d s a k m _ x0 c R C); eauto. Qed.
  Lemma rows_unused k x x0 m m1 r : reads d s a -> dflt d x0 k m = Ok x -> rows r m m1 -> rows ((k, Unused, a) :: r) m m1.
  Proof. intros R H Q. exists [], m1. split; [reflexivity|]. split; [|exact Q]. apply (unused_iff d s a k m _ x0 R); eauto. Qed.
  Lemma rows_must_inv k m m' r : reads d s a -> rows ((k, Must, a) :: r) m m' -> exists x m1, req d k m = Ok x /\ m' = (CText k, s x) :: m1 /\ rows r m m1.
  Proof. intros R (h & m1 & -> & F & Q). apply (must_iff d s a) in F as (x & F & ->); [|exact R]. exists x, m1. auto. Qed.
  Lemma rows_may_inv k x0 c m m' r : reads d s a -> s x0 = c -> rows ((k, May c, a) :: r) m m' ->
    exists x m1, dflt d x0 k m = Ok x /\ m' = (CText k, s x) :: m1 /\ rows r m m1.
  Proof. intros R C (h & m1 & -> & F & Q). apply (may_iff d s a k m h x0 c R C) in F as (x & F & ->). exists x, m1. auto. Qed.
  Lemma rows_unused_inv k x0 m m' r : reads d s a -> rows ((k, Unused, a) :: r) m m' -> exists x, dflt d x0 k m = Ok x /\ rows r m m'.
  Proof. intros R (h & m1 & -> & F & Q). apply (unused_iff d s a k m h x0 R) in F as (x & F & ->). exists x. auto. Qed.
End Rows.
Lemma rows_props k p m : dflt de_props no_props k m = Ok p -> rows [(k, NonEmpty, data)] m (skip_empty k p).
Proof. intros H. exists (skip_empty k p), []. split; [symmetry; apply app_nil_r|]. split; [|reflexivity]. apply nonempty_iff. eauto. Qed.
Lemma rows_props_inv k m m' : rows [(k, NonEmpty, data)] m m' -> exists p, dflt de_props no_props k m = Ok p /\ m' = skip_empty k p.
Proof. intros (h & m1 & -> & F & ->). apply nonempty_iff in F as (p & F & ->). exists p. rewrite app_nil_r. auto. Qed.

Lemma w_u16 : reads (de_u 2) (@ser_u 2) (Num 2). Proof. apply w_u. Qed.
Lemma w_u32 : reads (de_u 4) (@ser_u 4) (Num 4). Proof. apply w_u. Qed.
Lemma w_u64 : reads (de_u 8) (@ser_u 8) (Num 8). Proof. apply w_u. Qed.
Create HintDb wire.
#[export] Hint Resolve w_id w_u8 w_u16 w_u32 w_u64 w_bool w_text w_sub w_ct w_list w_opt w_props w_uuid w_hex : wire.
Ltac wire := solve [eauto 8 with wire].
Ltac row :=
  match goal with
  | |- rows [] _ _ => reflexivity
  | |- rows ((_, Must, _) :: _) _ _ => eapply rows_must; [wire|eassumption|reflexivity|]
  | |- rows ((_, May _, _) :: _) _ _ => eapply rows_may; [wire|eassumption|reflexivity|reflexivity|]
  | |- rows ((_, Unused, _) :: _) _ _ => eapply rows_unused; [wire|eassumption|]
  | |- rows ((_, NonEmpty, _) :: _) _ _ => eapply rows_props; eassumption
  | |- rows (_ :: _) _ _ => progress unfold must, may
  end.
Ltac unrow :=
  match goal with
  | H : rows [] _ _ |- _ => cbn [rows] in H; subst
  | H : rows ((_, Must, _) :: _) _ _ |- _ => eapply rows_must_inv in H; [destruct H as (?x & ?m1 & ?E & -> & H)|wire]
  | H : rows ((_, NonEmpty, _) :: _) _ _ |- _ => apply rows_props_inv in H as (?p & ?E & ->)
  end.
(** a field that may be missing, with the value that it then has *)
Ltac unmay e0 :=
  match goal with
  | H : rows ((_, May _, _) :: _) _ _ |- _ =>
      eapply rows_may_inv with (x0 := e0) in H; [destruct H as (?x & ?m1 & ?E & -> & H)|wire|reflexivity]
  | H : rows ((_, Unused, _) :: _) _ _ |- _ => eapply rows_unused_inv with (x0 := e0) in H; [destruct H as (?x & ?E & H)|wire]
  end.
Ltac intake :=
  let y := fresh "y" in let E := fresh "E" in let S := fresh "S" in
  intros (y & E & S); repeat (apply bind_ok in E as (?x & ?H & E)); injection E as <-; injection S as <-.
Lemma bind_intro {A B} (x : res unit A) (f : A -> res unit B) a b : x = Ok a -> f a = Ok b -> bind x f = Ok b.
Proof. intros ->. auto. Qed.
Ltac outtake :=
  eexists; split; [repeat match goal with |- bind _ _ = _ => eapply bind_intro; [eassumption|cbv beta] end; reflexivity|reflexivity].
Ltac record := apply w_struct; [intros y; eexists; reflexivity|]; intros m m'; split; [intake; repeat row|intros H; unfold must, may in H; repeat unrow].

Lemma w_candidate : reads de_candidate ser_candidate candidate.
Proof. record. outtake. Qed.
#[export] Hint Resolve w_candidate : wire.
Lemma w_contest : reads de_contest ser_contest contest.
Proof. record. outtake. Qed.
Lemma w_ballot : reads de_ballot ser_ballot ballot.
Proof. record. outtake. Qed.
Lemma w_selection : reads de_selection ser_selection selection.
Proof. record. unmay false. unmay (u_of 4 0). repeat unrow. outtake. Qed.
Lemma w_mixconfig : reads de_mixconfig ser_mixconfig mix_config.
Proof. record. unmay (@None u16). repeat unrow. outtake. Qed.
#[export] Hint Resolve w_contest w_ballot w_selection w_mixconfig : wire.

Section Wire.
  Context {C : Crypto}.
  Lemma sub_hex {n} (P : arr n -> bool) (d : D (sub P)) :
    (forall v, d v = let! a := de_arr n v in ok_or (sub_of P a) tt) ->
    reads d (fun y => CBytes (arr_l (sv y))) (Raw (fun b => exists a : arr n, arr_l a = b /\ P a = true)).
  Proof.
    intros H. apply (w_rawof d (fun y : sub P => arr_l (sv y))).
    - intros v y. rewrite H, bind_ok. unfold de_arr. split.
      + intros (a & E & F). apply bind_ok in E as (b & E & G). apply ok_or_ok, arr_of_some in G. apply ok_or_ok, sub_of_some in F. exists b. split; [exact E|].
        rewrite F. exact G.
      + intros (b & E & <-). exists (sv y). split; [|apply ok_or_ok, sub_of_some; reflexivity]. rewrite E. cbn [bind]. apply ok_or_ok, arr_of_arr.
    - intros b. split.
      + intros (a & <- & Pa). exists (mk_sub a Pa). reflexivity.
      + intros (y & <-). exists (sv y). split; [reflexivity|apply (s_ok y)].
  Qed.
  Lemma w_pk : reads de_pk ser_pk ed_key.
  Proof. apply (sub_hex ed_pk_ok de_pk). reflexivity. Qed.
  Lemma w_sig : reads de_sig ser_sig ed_sig.
  Proof. apply (sub_hex ed_sig_ok de_sig). reflexivity. Qed.
  Lemma w_x : reads (de_arr 32) (fun a => CBytes (arr_l a)) x_key.
  Proof. apply w_arr. Qed.
  Lemma w_rsa : reads de_key (fun k => CBytes (sv k)) rsa_key.
  Proof.
    apply (w_rawof de_key (fun y : AuthPublicKey => sv y)).
    - intros v y. split.
      + intros E. apply bind_ok in E as (b & E & F). apply ok_or_ok, sub_of_some in F. exists b. split; [exact E|exact F].
      + intros (b & E & F). apply bind_ok. exists b. split; [exact E|]. apply ok_or_ok, sub_of_some. exact F.
    - intros b. split.
      + intros H. exists (mk_sub b H). reflexivity.
      + intros (y & <-). apply (s_ok y).
  Qed.
  Lemma w_keys : reads (de_imap rs_eqb de_text de_key) ser_keys (Dict rsa_key).
  Proof. apply w_imap, w_rsa. Qed.
  Lemma w_shares : reads (de_imap_seq Byte.eqb de_u8 de_raw) ser_shares (Pairs (Num 1) (Raw (fun _ => True))).
  Proof. apply w_imap_seq, w_raw. Qed.
  Hint Resolve w_pk w_sig w_x w_keys w_shares : wire.
  Lemma w_trustee : reads de_trustee ser_trustee trustee.
  Proof. record. unmay (u_of 8 0). unmay x00. repeat unrow. outtake. Qed.
  Lemma w_authenticator : reads de_authenticator ser_authenticator authenticator.
  Proof. record. outtake. Qed.
  Lemma w_authentication : reads de_authentication ser_authentication authentication.
  Proof. record. outtake. Qed.
  Lemma w_encvote : reads de_encvote ser_encvote encrypted_vote.
  Proof. record. outtake. Qed.
  Hint Resolve w_trustee w_authenticator w_authentication w_encvote : wire.
  Lemma w_election : reads de_election ser_election (tx_shape TElection).
  Proof. record. unmay (@None MixConfig). repeat unrow. unmay no_props. repeat unrow. outtake. Qed.
  Lemma w_commitment : reads de_commitment ser_commitment (tx_shape TKeyGenCommitment).
  Proof. record. outtake. Qed.
  Lemma w_share : reads de_share ser_share (tx_shape TKeyGenShare).
  Proof. record. outtake. Qed.
  Lemma w_pubkey : reads de_pubkey ser_pubkey (tx_shape TKeyGenPublicKey).
  Proof. record. outtake. Qed.
  Lemma w_enckey : reads de_enckey ser_enckey (tx_shape TEncryptionKey).
  Proof. record. outtake. Qed.
  Lemma w_vote : reads de_vote ser_vote (tx_shape TVote).
  Proof. record. outtake. Qed.
  Lemma w_votingend : reads de_votingend ser_votingend (tx_shape TVotingEnd).
  Proof. record. outtake. Qed.
  Lemma w_mix : reads de_mix ser_mix (tx_shape TMix).
  Proof. record. unmay (@None Identifier). repeat unrow. outtake. Qed.
  Lemma w_partial : reads de_partial ser_partial (tx_shape TPartialDecryption).
  Proof. record. outtake. Qed.
  Lemma w_decryption : reads de_decryption ser_decryption (tx_shape TDecryption).
  Proof. record. outtake. Qed.
End Wire.
