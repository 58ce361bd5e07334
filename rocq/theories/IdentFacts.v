(** * Facts about identifiers. *)
From Verif Require Import Base BaseFacts Hex HexFacts Ident BuildId.

Lemma tt_of_to t : tt_of_u8 (tt_u8 t) = Some t.
Proof. destruct t; reflexivity. Qed.
Lemma tt_u8_inj a b : tt_u8 a = tt_u8 b -> a = b.
Proof. intros H. apply (f_equal tt_of_u8) in H. rewrite !tt_of_to in H. congruence. Qed.
Lemma tt_of_u8_some b t : tt_of_u8 b = Some t -> tt_u8 t = b.
Proof.
  intros H.
  assert (L : match tt_of_u8 b with Some t => Byte.eqb (tt_u8 t) b | None => true end = true)
    by (apply (byte_sweep (fun b => match tt_of_u8 b with Some t => Byte.eqb (tt_u8 t) b | None => true end));
        vm_compute; reflexivity).
  rewrite H in L. apply byte_eqb_eq in L. exact L.
Qed.
Lemma tt_eqb_eq a b : tt_eqb a b = true <-> a = b.
Proof.
  unfold tt_eqb. rewrite byte_eqb_eq. split; [apply tt_u8_inj|congruence].
Qed.
Lemma tt_hex_string_spec t : tt_hex_string t = hex_byte (tt_u8 t).
Proof. destruct t; reflexivity. Qed.

Lemma id_ext a b :
  id_election a = id_election b -> id_type a = id_type b -> id_unique a = id_unique b -> a = b.
Proof. destruct a, b; cbn; congruence. Qed.
Lemma id_eqb_eq a b : id_eqb a b = true <-> a = b.
Proof.
  unfold id_eqb. rewrite !andb_true_iff, !arr_eqb_eq, tt_eqb_eq. split.
  - intros [[H1 H2] H3]. apply id_ext; assumption.
  - intros ->; auto.
Qed.
Lemma id_eqb_refl a : id_eqb a a = true.
Proof. apply id_eqb_eq; reflexivity. Qed.
Lemma id_eqb_neq a b : id_eqb a b = false <-> a <> b.
Proof. rewrite <- id_eqb_eq. destruct (id_eqb a b); split; congruence. Qed.
Lemma id_eq_dec (a b : Identifier) : {a = b} + {a <> b}.
Proof. destruct (id_eqb a b) eqn:E; [left; apply id_eqb_eq|right; apply id_eqb_neq]; exact E. Qed.

Lemma id_to_bytes_length i : length (id_to_bytes i) = 32.
Proof. unfold id_to_bytes. rewrite app_length. cbn [length]. rewrite !arr_len. reflexivity. Qed.
Lemma id_to_bytes_inj a b : id_to_bytes a = id_to_bytes b -> a = b.
Proof.
  unfold id_to_bytes. intros H. apply app_eq_len in H; [|rewrite !arr_len; reflexivity].
  destruct H as [H1 H2]. injection H2 as H2 H3.
  apply id_ext; [apply arr_ext|apply tt_u8_inj|apply arr_ext]; assumption.
Qed.
Lemma id_to_string_inj a b : id_to_string a = id_to_string b -> a = b.
Proof. intros H. apply id_to_bytes_inj, hex_encode_inj, H. Qed.
Lemma id_to_string_length i : length (id_to_string i) = 64.
Proof. unfold id_to_string. rewrite hex_encode_length, id_to_bytes_length. reflexivity. Qed.

(** ** Parsing: one equation covering every input *)
Definition id_of_bytes (b : bytes) : option Identifier :=
  match arr_of 15 (firstn 15 b), nth_error b 15, arr_of 16 (skipn 16 b) with
  | Some e, Some tb, Some u =>
      match tt_of_u8 tb with Some t => Some (mk_id e t u) | None => None end
  | _, _, _ => None
  end.

Lemma split_15_16 (b : bytes) :
  length b = 32 ->
  exists e x u, b = e ++ x :: u /\ length e = 15 /\ length u = 16 /\
    firstn 15 b = e /\ nth_error b 15 = Some x /\ skipn 16 b = u.
Proof.
  intros H. exists (firstn 15 b).
  destruct (skipn 15 b) as [|x u] eqn:E.
  { apply (f_equal (@length _)) in E. rewrite skipn_length, H in E. discriminate. }
  exists x, u. 
  assert (H15 : length (firstn 15 b) = 15) by (rewrite firstn_length, H; reflexivity).
  assert (Hb : b = firstn 15 b ++ x :: u) by (rewrite <- E; symmetry; apply firstn_skipn).
  assert (Hu : length u = 16).
  { apply (f_equal (@length _)) in Hb. rewrite app_length, H15, H in Hb. cbn in Hb. lia. }
  repeat split; auto.
  - rewrite Hb, nth_error_app2 by lia. rewrite H15. reflexivity.
  - rewrite Hb. change 16 with (15 + 1). rewrite <- H15 at 1.
    rewrite <- Nat.add_comm, skipn_app.
    rewrite skipn_all2 by lia. cbn [app]. 
    replace (1 + length (firstn 15 b) - length (firstn 15 b)) with 1 by lia. reflexivity.
Qed.

Lemma id_from_to_string i : id_from_str (id_to_string i) = Ok i.
Proof.
  unfold id_from_str, id_to_string. rewrite hex_decode_encode.
  pose proof (id_to_bytes_length i) as Hl. rewrite Hl. cbn [Nat.eqb negb andb].
  destruct (split_15_16 _ Hl) as (e & x & u & Hb & He & Hu & H1 & H2 & H3).
  rewrite H1, H2, H3. unfold id_to_bytes in Hb.
  apply app_eq_len in Hb; [|rewrite arr_len; auto]. destruct Hb as [Hb1 Hb2].
  injection Hb2 as Hb2 Hb3. subst e x u.
  rewrite arr_of_arr. cbn [or_panic bind]. rewrite tt_of_to. cbn [or_panic bind].
  rewrite arr_of_arr. cbn [or_panic bind]. destruct i; reflexivity.
Qed.

(** The outcome of parsing, for every string. *)
Lemma id_from_str_spec s :
  id_from_str s =
  match hex_decode s with
  | None => Err IdentifierBadHex
  | Some b =>
      if Nat.eqb (length b) 32 then
        match tt_of_u8 (match nth_error b 15 with Some x => x | None => x00 end) with
        | Some t => match arr_of 15 (firstn 15 b), arr_of 16 (skipn 16 b) with
                    | Some e, Some u => Ok (mk_id e t u)
                    | _, _ => Panic PUnwrap
                    end
        | None => Panic PUnwrap
        end
      else if Nat.eqb (length b) 16 then Panic PUnwrap
      else Err IdentifierBadLen
  end.
Proof.
  unfold id_from_str. destruct (hex_decode s) as [b|]; [|reflexivity].
  destruct (Nat.eqb_spec (length b) 32) as [H|H]; cbn [negb andb].
  - destruct (split_15_16 _ H) as (e & x & u & Hb & He & Hu & H1 & H2 & H3).
    rewrite H1, H2, H3.
    destruct (arr_of_ex _ _ He) as (ea & -> & _). destruct (arr_of_ex _ _ Hu) as (ua & -> & _).
    cbn. destruct (tt_of_u8 x); reflexivity.
  - destruct (Nat.eqb_spec (length b) 16) as [H'|H']; cbn [negb andb]; [|reflexivity].
    destruct (arr_of 15 (firstn 15 b)); [|reflexivity]. cbn [or_panic bind].
    destruct (nth_error b 15) eqn:E.
    + cbn [or_panic bind]. destruct (tt_of_u8 b0); [|reflexivity]. cbn [or_panic bind].
      rewrite (proj2 (arr_of_none 16 (skipn 16 b))); [reflexivity|].
      rewrite skipn_length. lia.
    + apply nth_error_None in E. lia.
Qed.

Lemma id_from_str_ok s i :
  id_from_str s = Ok i -> id_to_string i = map lower s.
Proof.
  rewrite id_from_str_spec. destruct (hex_decode s) as [b|] eqn:D; [|discriminate].
  destruct (Nat.eqb_spec (length b) 32) as [H|H].
  2: { destruct (Nat.eqb _ _); discriminate. }
  destruct (split_15_16 _ H) as (e & x & u & Hb & He & Hu & H1 & H2 & H3).
  rewrite H1, H2, H3.
  destruct (arr_of 15 e) as [ea|] eqn:Ee; [|destruct (tt_of_u8 x); discriminate].
  destruct (arr_of 16 u) as [ua|] eqn:Eu; [|destruct (tt_of_u8 x); discriminate].
  destruct (tt_of_u8 x) as [t|] eqn:Et; [|discriminate].
  intros Hi; injection Hi as <-. unfold id_to_string, id_to_bytes. cbn [id_election id_type id_unique].
  apply arr_of_some in Ee, Eu. apply tt_of_u8_some in Et. rewrite Ee, Et, Eu, <- Hb. apply hex_encode_decode, D.
Qed.

(** ** Order *)
Lemma id_cmp_bytes a b : id_cmp a b = lex (id_to_bytes a) (id_to_bytes b).
Proof.
  unfold id_cmp, id_to_bytes. rewrite lex_app by (rewrite !arr_len; reflexivity).
  destruct (lex _ _); reflexivity.
Qed.
Lemma id_cmp_string a b : id_cmp a b = lex (id_to_string a) (id_to_string b).
Proof. unfold id_to_string. rewrite hex_encode_lex. apply id_cmp_bytes. Qed.
Lemma id_partial_cmp_spec a b : id_partial_cmp a b = Some (id_cmp a b).
Proof.
  unfold id_partial_cmp, id_cmp. destruct (lex _ _); [|reflexivity..].
  destruct (byte_cmp _ _); reflexivity.
Qed.
Lemma id_cmp_eq a b : id_cmp a b = Eq <-> a = b.
Proof.
  rewrite id_cmp_bytes, lex_eq. split; [apply id_to_bytes_inj|congruence].
Qed.

(** ** masks *)
Lemma masked_some fill mask u :
  masked fill mask = Some u <-> length mask <= 16 /\ arr_l u = mask ++ repeat fill (16 - length mask).
Proof.
  unfold masked.
  assert (G : forall c (h : Nat.leb (length mask) 16 = c),
    match c as b return (Nat.leb (length mask) 16 = b -> _) with
    | true => fun h => Some (mk_arr _ (norm_true (masked_ok fill mask h)))
    | false => fun _ => None
    end h = Some u <-> length mask <= 16 /\ arr_l u = mask ++ repeat fill (16 - length mask)).
  { intros [|] h.
    - split.
      + intros H. injection H as <-. split; [apply Nat.leb_le; exact h|reflexivity].
      + intros [_ H]. f_equal. apply arr_ext. cbn. auto.
    - split; [discriminate|]. intros [H _]. apply Nat.leb_nle in h. contradiction. }
  apply G.
Qed.

Lemma id_start_none {E} e t : @id_start E e t None = Ok (mk_id (id_election e) t (arr_rep x00 16)).
Proof.
  unfold id_start, id_masked. destruct (masked x00 []) as [u|] eqn:H.
  - apply masked_some in H as [_ H]. do 2 f_equal. apply arr_ext. rewrite H. reflexivity.
  - exfalso. assert (masked x00 [] = Some (arr_rep x00 16)) by (apply masked_some; cbn; auto with arith).
    congruence.
Qed.
Lemma id_end_none {E} e t : @id_end E e t None = Ok (mk_id (id_election e) t (arr_rep xff 16)).
Proof.
  unfold id_end, id_masked. destruct (masked xff []) as [u|] eqn:H.
  - apply masked_some in H as [_ H]. do 2 f_equal. apply arr_ext. rewrite H. reflexivity.
  - exfalso. assert (masked xff [] = Some (arr_rep xff 16)) by (apply masked_some; cbn; auto with arith).
    congruence.
Qed.

(** An identifier lies between [start] and [end] of (election, type) exactly when it has
    that election and type. *)
Lemma id_range_spec e t i :
  ble (id_to_string (mk_id e t (arr_rep x00 16))) (id_to_string i) /\
  ble (id_to_string i) (id_to_string (mk_id e t (arr_rep xff 16)))
  <-> id_election i = e /\ id_type i = t.
Proof.
  unfold ble. rewrite <- !id_cmp_string. unfold id_cmp; cbn [id_election id_type id_unique].
  split.
  - rewrite (lex_opp (arr_l e) (arr_l (id_election i))).
    rewrite (byte_cmp_opp (tt_u8 t) (tt_u8 (id_type i))).
    intros [H1 H2]. 
    destruct (lex (arr_l e) (arr_l (id_election i))) eqn:E; cbn in H1, H2; try congruence.
    apply lex_eq, arr_ext in E.
    destruct (byte_cmp (tt_u8 t) (tt_u8 (id_type i))) eqn:T; cbn in H1, H2; try congruence.
    apply byte_cmp_eq, tt_u8_inj in T. auto.
  - intros [-> ->]. rewrite lex_refl, byte_cmp_refl. split.
    + apply lex_repeat_00_le, arr_len.
    + apply lex_repeat_ff_ge, arr_len.
Qed.

(** ** build_id injectivity *)
Lemma id_new_some e t u : id_new e t (Some u) = mk_id (id_election e) t u.
Proof. reflexivity. Qed.
Lemma first_byte_inj a b : first_byte a = first_byte b -> a = b.
Proof. intros H. unfold first_byte in H. apply (arr_app_inj (n:=1)) in H as [H _]. apply arr1_inj, H. Qed.
Lemma mix_unique_inj c b m t c' b' m' t' :
  mix_unique c b m t = mix_unique c' b' m' t' -> c = c' /\ b = b' /\ m = m' /\ t = t'.
Proof.
  unfold mix_unique. intros H.
  apply (arr_app_inj (n:=4)) in H as [H1 H]. apply (arr_app_inj (n:=4)) in H as [H2 H].
  apply (arr_app_inj (n:=1)) in H as [H3 H]. apply (arr_app_inj (n:=1)) in H as [H4 _].
  auto using to_be_inj, arr1_inj.
Qed.
Lemma mix_seed_inj c b m t c' b' m' t' :
  mix_seed c b m t = mix_seed c' b' m' t' -> c = c' /\ b = b' /\ m = m' /\ t = t'.
Proof.
  unfold mix_seed. intros H. apply app_eq_len in H; [|reflexivity].
  destruct H as [H0 H]. injection H0 as -> ->.
  apply app_eq_len in H; [|rewrite !arr_len; reflexivity]. destruct H as [H1 H2].
  auto using to_be_inj, arr_ext.
Qed.

(** The slot part of the identifiers of (partial) decryptions: what it determines. *)
Lemma slot_unique_inj_mix up up' c c' i i' t t' :
  id_type up = TMix -> slot_unique up c i t = slot_unique up' c' i' t' ->
  c = c' /\ id_type up' = TMix /\ i = i' /\ t = t' /\
  firstn 8 (skipn 4 (arr_l (id_unique up))) = firstn 8 (skipn 4 (arr_l (id_unique up'))).
Proof.
  intros Hm H. unfold slot_unique in H. rewrite Hm in H.
  apply (arr_app_inj (n:=4)) in H as [H1 H]. apply (arr_app_inj (n:=1)) in H as [H2 H].
  apply arr1_inj, tt_u8_inj in H2. rewrite <- H2 in H.
  apply (arr_app_inj (n:=8)) in H as [H3 H]. apply (arr_app_inj (n:=2)) in H as [H4 H5].
  apply (f_equal arr_l) in H3. 
  auto 8 using to_be_inj, arr1_inj.
Qed.
Lemma slot_unique_inj_vote up up' c c' i i' t t' :
  id_type up = TVote -> slot_unique up c i t = slot_unique up' c' i' t' ->
  c = c' /\ id_type up' = TVote /\ t = t' /\
  firstn 10 (arr_l (id_unique up)) = firstn 10 (arr_l (id_unique up')).
Proof.
  intros Hm H. unfold slot_unique in H. rewrite Hm in H.
  apply (arr_app_inj (n:=4)) in H as [H1 H]. apply (arr_app_inj (n:=1)) in H as [H2 H].
  apply arr1_inj, tt_u8_inj in H2. rewrite <- H2 in H.
  apply (arr_app_inj (n:=10)) in H as [H3 H4]. apply (f_equal arr_l) in H3.
  auto 8 using to_be_inj, arr1_inj.
Qed.
