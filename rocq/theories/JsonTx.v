(** * JsonTx: transactions survive JSON. *)
From Verif Require Import Base BaseFacts Hex HexFacts Utf8 Cbor CborFacts Value Ident IdentFacts Crypto Types MapFacts ValueFacts Serde SpecSerde SerdeFacts
  Json SpecJson JsonFacts ReserFacts.
From Coq Require Strings.String.
Import String.StringSyntax.
Open Scope list_scope.

(** ** numbers *)
Lemma undec_pos l b : digit b = true -> Byte.eqb b x30 = false -> (1 <= undec (b :: l))%N.
Proof.
  intros D Z. assert (1 <= u8v b - 48)%N.
  { pose proof (byte_sweep (fun b => implb (digit b && negb (Byte.eqb b x30)) (1 <=? u8v b - 48)%N) ltac:(vm_compute; reflexivity) b) as H.
    cbv beta in H. rewrite D, Z in H. cbn [andb negb implb] in H. apply N.leb_le in H. exact H. }
  unfold undec. cbn [fold_left]. assert (G : forall l a, (1 <= a)%N -> (1 <= fold_left (fun a b => 10 * a + (u8v b - 48)) l a)%N).
  { clear. induction l as [|c l IH]; intros a A; cbn [fold_left]; [exact A|]. apply IH. lia. }
  apply G. lia.
Qed.
Lemma digit_back b : digit b = true -> u8_of (48 + (u8v b - 48)) = b /\ (u8v b - 48 < 10)%N.
Proof.
  intros D. pose proof (byte_sweep (fun b => implb (digit b) (Byte.eqb (u8_of (48 + (u8v b - 48))) b && (u8v b - 48 <? 10)%N)) ltac:(vm_compute; reflexivity) b) as H.
  cbv beta in H. rewrite D in H. cbn [implb] in H. apply andb_true_iff in H as [H1 H2]. apply beq in H1. apply N.ltb_lt in H2. auto.
Qed.
Lemma dec_undec l : forall f, forallb digit l = true -> l <> [] -> (match l with b :: r => Byte.eqb b x30 = true -> r = [] | [] => True end) ->
  (undec l < 10 ^ N.of_nat (S f))%N -> dec_fuel (S f) (undec l) = l.
Proof.
  induction l as [|b l IH] using rev_ind; intros f D N Z L; [congruence|]. rewrite forallb_app in D. apply andb_true_iff in D as [D1 D2].
  cbn [forallb] in D2. rewrite andb_true_r in D2. destruct (digit_back b D2) as [Bk Lt]. rewrite undec_app in *.
  destruct l as [|c l].
  - unfold undec in *. cbn [fold_left app dec_fuel] in *. replace (10 * 0 + (u8v b - 48))%N with (u8v b - 48)%N by lia.
    destruct (N.ltb_spec (u8v b - 48) 10); [|lia]. rewrite Bk. reflexivity.
  - assert (Zc : Byte.eqb c x30 = false) by (destruct (Byte.eqb c x30) eqn:Q; [|reflexivity]; cbn [app] in Z; specialize (Z Q); destruct l; discriminate).
    pose proof D1 as D1'. cbn [forallb] in D1'. apply andb_true_iff in D1' as [Dc _]. pose proof (undec_pos l c Dc Zc) as P.
    set (m := undec (c :: l)) in *. cbn [dec_fuel]. destruct (N.ltb_spec (10 * m + (u8v b - 48)) 10); [lia|].
    assert (E1 : ((10 * m + (u8v b - 48)) / 10 = m)%N) by (symmetry; apply (N.div_unique _ 10 m (u8v b - 48)); lia).
    assert (E2 : ((10 * m + (u8v b - 48)) mod 10 = u8v b - 48)%N) by (symmetry; apply (N.mod_unique _ 10 m (u8v b - 48)); lia).
    rewrite E1, E2, Bk. f_equal. unfold m. destruct f as [|f].
    + exfalso. change (10 ^ N.of_nat 1)%N with 10%N in L. lia.
    + apply IH; [exact D1|discriminate|rewrite Zc; discriminate|]. fold m.
      replace (N.of_nat (S (S f))) with (N.succ (N.of_nat (S f))) in L by lia. rewrite N.pow_succ_r' in L. lia.
Qed.
Lemma scan_all l : forallb digit l = true -> scan_int l <> None ->
  l <> [] /\ (match l with b :: r => Byte.eqb b x30 = true -> r = [] | [] => True end).
Proof.
  intros D H. unfold scan_int in H. rewrite <- (app_nil_r l), (digits_app l [] D eq_refl) in H. destruct l as [|b l]; [congruence|].
  split; [discriminate|]. intros Z. rewrite Z in H. destruct l; [reflexivity|]. cbn in H. congruence.
Qed.
Lemma p63 : (2 ^ 63 < 2 ^ 64)%N.
Proof. vm_compute. reflexivity. Qed.
(** reading an integer back gives the numeral *)
Lemma as_int_back s v : num_ok (sv s) = true -> as_int (sv s) = Some v -> de_jval v = Some (JNum s).
Proof.
  intros N A. pose proof (num_ok_of _ N) as O. unfold num_of in O. destruct (scan_num (sv s)) as [[t [|]]|] eqn:E; try discriminate. injection O as O.
  unfold as_int in A. unfold scan_num in E. destruct (scan_minus (sv s)) as [m d] eqn:M.
  assert (Si : forallb digit d = true -> d <> [] /\ match d with b :: r => Byte.eqb b x30 = true -> r = [] | [] => True end).
  { intros D. apply scan_all; [exact D|]. intros Q. rewrite Q in E. discriminate. }
  assert (Dv : (m = [] /\ d = sv s) \/ (m = [x2d] /\ sv s = x2d :: d)).
  { unfold scan_minus in M. destruct (sv s) as [|b r]; [injection M as <- <-; auto|]. destruct (Byte.eqb b x2d) eqn:Q; injection M as <- <-; [|auto].
    apply beq in Q. subst. auto. }
  clear E. destruct Dv as [[-> ->]|[-> Es]].
  - destruct (forallb digit (sv s)) eqn:D; [|discriminate]. cbn [andb] in A. destruct (N.ltb_spec (undec (sv s)) (2 ^ 64)) as [L|]; [|discriminate].
    injection A as <-. destruct (Si eq_refl) as [S1 S2]. cbn [de_jval]. unfold dec. rewrite uv_u_of by (rewrite pow256_8; exact L).
    rewrite (dec_undec _ 19 D S1 S2) by (apply big20; lia). apply num_text_ok.
  - destruct (forallb digit d) eqn:D; [|discriminate]. cbn [andb] in A. destruct (N.leb_spec (undec d) (2 ^ 63)) as [L|]; [|discriminate].
    destruct (Si eq_refl) as [S1 S2]. pose proof p63 as P. assert (L64 : (undec d <= 2 ^ 64)%N) by lia. pose proof (dec_undec d 19 D S1 S2 (big20 _ L64)) as B.
    injection A as <-. destruct (N.eqb_spec (undec d) 0) as [Z|Z].
    + exfalso. rewrite Z in B. change (dec_fuel 20 0) with [x30] in B. subst d. rewrite Es in O. unfold num_norm in O.
      destruct (bytes_eqb t [x2d; x30]) eqn:Q; [discriminate|]. subst t. vm_compute in Q. discriminate.
    + cbn [de_jval]. rewrite uv_u_of by (rewrite pow256_8; lia). replace (undec d - 1 <? 2 ^ 63)%N with true by (symmetry; apply N.ltb_lt; lia).
      unfold neg_text. rewrite uv_u_of by (rewrite pow256_8; lia). replace (undec d - 1 + 1)%N with (undec d) by lia. rewrite B, <- Es. apply num_text_ok.
Qed.
Lemma dec_as_int n : as_int (dec n) = Some (CUint n).
Proof.
  unfold as_int, dec. pose proof (u64_lt n) as U. pose proof (big20 (uv n) ltac:(lia)) as B. destruct (dec_head 19 (uv n) B) as (b & r & E & _).
  pose proof (dec_digits 20 (uv n)) as D. pose proof (undec_dec 20 (uv n) B) as Un. rewrite E in *. cbn [forallb] in D. apply andb_true_iff in D as [D1 D2].
  unfold scan_minus. rewrite (digit_neq b x2d D1 eq_refl). cbn [forallb]. rewrite D1, D2, Un. cbn [andb].
  replace (uv n <? 2 ^ 64)%N with true by (symmetry; apply N.ltb_lt, U). rewrite u_of_uv. reflexivity.
Qed.
Lemma neg_as_int n : (uv n < 2 ^ 63)%N -> as_int (neg_text n) = Some (CNint n).
Proof.
  intros L. unfold as_int, neg_text. pose proof p63 as P. pose proof (big20 (uv n + 1) ltac:(lia)) as B.
  change (scan_minus (x2d :: dec_fuel 20 (uv n + 1))) with ([x2d], dec_fuel 20 (uv n + 1)). cbv beta iota.
  rewrite dec_digits, (undec_dec 20 _ B). cbn [andb]. destruct (N.leb_spec (uv n + 1) (2 ^ 63)); [|lia].
  destruct (N.eqb_spec (uv n + 1) 0); [lia|]. replace (uv n + 1 - 1)%N with (uv n) by lia. rewrite u_of_uv. reflexivity.
Qed.

(** ** items *)
Lemma content_to_json v : text_like v = true -> content (to_json v) = v.
Proof.
  induction v as [n|n|b|s|b| |n|n|l IH|l IH] using cval_ind2; cbn [text_like to_json content]; intros H; try reflexivity; try discriminate.
  - cbn [sv]. rewrite dec_as_int. reflexivity.
  - cbn [sv]. rewrite neg_as_int by (apply N.ltb_lt, H). reflexivity.
  - f_equal. rewrite map_map. rewrite forallb_forall in H. rewrite Forall_forall in IH. rewrite <- (map_id l) at 2. apply map_ext_in. auto.
  - f_equal. rewrite forallb_forall in H. rewrite Forall_forall in IH. induction l as [|[a w] l IHl]; [reflexivity|].
    pose proof (H _ (or_introl eq_refl)) as Ha. destruct a as [ | | |k| | | | | | ]; try discriminate. cbn [flat_map app map].
    rewrite IHl by (intros; (apply H || apply IH); right; assumption). destruct (IH _ (or_introl eq_refl)) as [_ Iw]. cbn [snd] in Iw. rewrite (Iw Ha). reflexivity.
Qed.
Lemma to_json_nums v : text_like v = true -> jnums (to_json v) = true.
Proof.
  induction v as [n|n|b|s|b| |n|n|l IH|l IH] using cval_ind2; cbn [text_like to_json jnums]; intros H; try reflexivity; try discriminate.
  - apply dec_num.
  - apply neg_num, N.ltb_lt, H.
  - rewrite forallb_forall in *. rewrite Forall_forall in IH. intros x I. apply in_map_iff in I as (y & <- & I). auto.
  - rewrite forallb_forall in *. rewrite Forall_forall in IH. intros [k x] I. apply in_flat_map in I as ([a w] & I & Q).
    pose proof (H _ I) as Ha. destruct a; try discriminate. destruct Q as [Q|[]]. injection Q as <- <-. destruct (IH _ I) as [_ Iw]. exact (Iw Ha).
Qed.
Lemma content_depth j : jdepth j <= cdepth (content j).
Proof.
  induction j as [| | | |l IH|l IH] using jval_ind2; cbn [jdepth content cdepth]; try lia.
  - induction IH as [|x l Hx _ IHl]; cbn [map fold_right]; [lia|]. cbn [map fold_right] in IHl. lia.
  - induction IH as [|[k x] l Hx _ IHl]; cbn [map fold_right]; [lia|]. cbn [snd] in Hx. lia.
Qed.
Lemma content_value (v : Value) : de_value (content (sv v)) = Ok v.
Proof.
  unfold de_value. replace (de_jval (content (sv v))) with (Some (sv v)); [rewrite sub_of_sv; reflexivity|]. symmetry.
  pose proof (s_ok v) as H. revert H. generalize (sv v). clear v.
  intros j. induction j as [| |s| |l IH|l IH] using jval_ind2; cbn [jok]; intros H; try reflexivity.
  - cbn [content]. destruct (as_int (sv s)) as [v|] eqn:A; [apply (as_int_back s v H A)|].
    cbn [de_jval]. replace (rs_eqb token token) with true by (vm_compute; reflexivity). unfold num_from. rewrite (num_ok_of _ H). apply num_text_ok.
  - cbn [content de_jval]. rewrite all_some_map; [reflexivity|]. rewrite Forall_forall in *. rewrite forallb_forall in H. auto.
  - apply andb_true_iff in H as [H H3]. apply andb_true_iff in H as [H1 H2]. apply negb_true_iff in H2.
    cbn [content]. rewrite de_map_obj.
    + rewrite (all_some_map _ (fun p => match p with (k, v) => (CText k, content v) end)).
      * rewrite ibuild_nodup; [reflexivity|apply rs_eqb_eq|]. rewrite <- no_dup_keys. exact H1.
      * rewrite Forall_forall in *. rewrite forallb_forall in H3. intros [k v] I. cbn [de_key_text].
        specialize (IH _ I). cbn [snd] in IH. rewrite IH; [reflexivity|]. exact (H3 _ I).
    + destruct l as [|[k v] l]; [exact I|]. exact H2.
Qed.
Lemma jok_nums j : jok j = true -> jnums j = true.
Proof.
  induction j as [| |s| |l IH|l IH] using jval_ind2; cbn [jok jnums]; intros H; auto.
  - rewrite forallb_forall in *. rewrite Forall_forall in IH. auto.
  - apply andb_true_iff in H as [_ H]. rewrite forallb_forall in *. rewrite Forall_forall in IH. intros [k v] I. apply (IH _ I), (H _ I).
Qed.
(** a value read from an item of a given depth is not deeper in the buffer *)
Lemma as_int_good s v n : as_int s = Some v -> good n v.
Proof.
  unfold as_int. destruct (scan_minus s) as [[|] d]; destruct (forallb digit d && _); try discriminate; intros H; injection H as <-.
  - apply good_uint.
  - destruct (_ =? 0)%N; [apply good_uint|]. split; [reflexivity|cbn; lia].
Qed.
Lemma value_depth v : forall n j, de_jval v = Some j -> good n v -> good n (content j).
Proof.
  induction v as [n0|n0|b|s|b| |n0|n0|l IH|l IH] using cval_ind2; intros n j H G;
    try (injection H as <-; exact G); try discriminate.
  - apply num_text_some in H as (t & -> & E). cbn [content]. rewrite E, dec_as_int. apply good_uint.
  - cbn [de_jval] in H. destruct (N.ltb_spec (uv n0) (2 ^ 63)); [|discriminate]. apply num_text_some in H as (t & -> & E).
    cbn [content]. rewrite E, neg_as_int by assumption. split; [reflexivity|cbn; lia].
  - cbn [de_jval] in H. destruct (all_some (map de_jval l)) as [r|] eqn:E; [|discriminate]. injection H as <-.
    apply all_some_inv in E. destruct n as [|n]; [destruct G as [_ G]; cbn [cdepth] in G; lia|]. apply good_arr in G as [G1 G2].
    cbn [content]. apply good_arr. split.
    + apply Forall2_len in E. unfold clen in *. rewrite map_length in *. lia.
    + intros x I. apply in_map_iff in I as (y & <- & I). destruct (Forall2_in_r _ _ _ _ E I) as (o & O & ->).
      apply in_map_iff in O as (c & Ec & O). rewrite Forall_forall in IH. apply (IH c O n y Ec), G2, O.
  - destruct n as [|n]; [destruct G as [_ G]; cbn [cdepth] in G; lia|]. apply good_map in G as [G1 G2].
    apply de_map_cases in H as [(s & -> & H)|(ps & F & E & ->)].
    + apply num_from_some in H as (t & -> & _ & L). cbn [content]. destruct (as_int (sv t)) as [u|] eqn:A; [exact (as_int_good _ _ _ A)|].
      apply good_num. destruct (G2 _ _ (or_introl eq_refl)) as [_ G]. apply good_text in G. unfold clen in *. lia.
    + cbn [content]. destruct (ibuild_all rs_eqb ps (fun k => good n (CText k)) (fun v => good n (content v))) as [B1 B2].
      { intros [k w] I. destruct (Forall2_in_r _ _ _ _ F I) as ([a b] & Ci & Ca & Cd). cbn [fst snd] in *. subst a.
        destruct (G2 _ _ Ci) as [Ga Gb]. split; [exact Ga|]. rewrite Forall_forall in IH.
        destruct (IH _ Ci) as [_ IHb]. exact (IHb n w Cd Gb). }
      apply good_map. split.
      * unfold clen in *. rewrite map_length. apply Forall2_len in F. lia.
      * intros x y I. apply in_map_iff in I as ([k w] & Q & I). injection Q as <- <-. apply (B2 _ I).
Qed.

(** ** the parts of transactions that JSON writes in its own way *)
Lemma cut (b : bytes) : List.length b = 16 -> b = firstn 4 b ++ firstn 2 (skipn 4 b) ++ firstn 2 (skipn 6 b) ++ firstn 2 (skipn 8 b) ++ skipn 10 b.
Proof. intros L. do 16 (destruct b as [|? b]; [discriminate|]). destruct b; [reflexivity|discriminate]. Qed.
Ltac take n x := match n with O => destruct x; [|discriminate] | S ?m => let c := fresh "c" in destruct x as [|c x]; [discriminate|]; take m x end.
Lemma hyphens_parts (a b c d e : bytes) : List.length a = 8 -> List.length b = 4 -> List.length c = 4 -> List.length d = 4 -> List.length e = 12 ->
  uuid_parse (a ++ x2d :: b ++ x2d :: c ++ x2d :: d ++ x2d :: e)
  = match hex_decode (a ++ b ++ c ++ d ++ e) with Some l => arr_of 16 l | None => None end.
Proof.
  intros A B Cc Dd E. take 8 a. take 4 b. take 4 c. take 4 d. take 12 e. reflexivity.
Qed.
Lemma uuid_hyphens_parse (u : uuid) : uuid_parse (uuid_hyphens (arr_l u)) = Some u.
Proof.
  pose proof (arr_len u) as L. unfold uuid_hyphens. rewrite hyphens_parts.
  2-6: rewrite hex_encode_length, ?firstn_length, ?skipn_length, ?L; reflexivity.
  rewrite <- !hex_encode_app, <- (cut _ L), hex_decode_encode. apply arr_of_arr.
Qed.
Definition c_uuid (u : uuid) : cval := content (j_uuid u).
Lemma c_uuid_ok u : de_uuid (c_uuid u) = Ok u.
Proof. unfold c_uuid, j_uuid, content, de_uuid. cbn [sv]. rewrite uuid_hyphens_parse. reflexivity. Qed.
Lemma r_cuuid e : reser e de_uuid c_uuid 0.
Proof.
  intros n v u _ _ _. unfold c_uuid, j_uuid, content. apply good_text. cbn [sv]. unfold clen, uuid_hyphens. apply small.
  pose proof (arr_len u). repeat (rewrite app_length || cbn [List.length]). rewrite !hex_encode_length, !firstn_length, !skipn_length. lia.
Qed.

Definition c_value (v : Value) : cval := content (sv v).
Definition c_props (p : props) : cval := CMap (map (fun '(k, v) => (CText k, c_value v)) (sv p)).
Definition c_skip (k : rstring) (p : props) : list (cval * cval) := match sv p with [] => [] | _ => [(CText k, c_props p)] end.
Lemma content_props p : content (j_props p) = c_props p.
Proof. unfold j_props, c_props. cbn [content]. rewrite map_map. f_equal. apply map_ext. intros [k v]. reflexivity. Qed.
Lemma content_skip k p : map (fun q => match q with (k, v) => (CText k, content v) end) (j_skip k p) = c_skip k p.
Proof. unfold j_skip, c_skip. destruct (sv p) eqn:E; [reflexivity|]. cbn [map]. rewrite content_props. reflexivity. Qed.
Lemma de_c_props p : de_props (c_props p) = Ok p.
Proof. unfold de_props, c_props. apply (de_imap_ok rs_eqb de_text _ CText c_value); [apply rs_eqb_eq|reflexivity|apply content_value]. Qed.
Lemma r_cvalue : reser 0 de_value c_value 0.
Proof.
  intros n v a H G _. unfold de_value in H. destruct (de_jval v) as [j|] eqn:E; [|discriminate].
  destruct (sub_of jok j) as [x|] eqn:S; [|discriminate]. injection H as <-. apply sub_of_some in S. unfold c_value. rewrite S, Nat.add_0_r.
  eapply value_depth; eauto.
Qed.
Lemma r_cprops : reser 0 de_props c_props 1.
Proof. apply (r_imap 0 rs_eqb de_text _ CText c_value 0 0); [apply r_text|apply r_cvalue]. Qed.
Lemma cskip_good n k p : good n (CText k) -> good n (c_props p) -> Forall (fun q => good n (fst q) /\ good n (snd q)) (c_skip k p).
Proof. intros A B. unfold c_skip. destruct (sv p); constructor; auto. Qed.
Lemma cskip_len k p : List.length (c_skip k p) <= 1.
Proof. unfold c_skip. destruct (sv p); cbn; lia. Qed.
Lemma lookup_cskip k k' p :
  lookup k (c_skip k' p) = if rs_eqb k k' then match sv p with [] => [] | _ => [c_props p] end else [].
Proof.
  unfold c_skip. destruct (sv p).
  - destruct (rs_eqb k k'); reflexivity.
  - rewrite lookup_cons, lookup_nil. reflexivity.
Qed.
Lemma dflt_cprops p :
  match sv p with [] => [] | _ => [c_props p] end = ([] : list cval) /\ p = no_props \/
  match sv p with [] => [] | _ => [c_props p] end = [c_props p].
Proof.
  destruct (sv p) eqn:E; [left|right; reflexivity]. split; [reflexivity|]. apply sub_ext. rewrite E. reflexivity.
Qed.
Ltac keys := rewrite ?lookup_app, ?lookup_cskip; repeat lk1;
  repeat match goal with
  | |- context [rs_eqb ?a ?b] =>
      let r := eval vm_compute in (rs_eqb a b) in change (rs_eqb a b) with r; cbv iota
  end.
Ltac fields := unfold req, dflt; keys; cbn [app].
Ltac struct := unfold de_struct; cbv beta iota; fields.
Ltac props p := let H := fresh in let E := fresh in
  destruct (dflt_cprops p) as [[H E]|H]; rewrite ?H;
  [rewrite ?E|rewrite ?de_c_props]; cbn [bind].
(** as in ReserFacts *)
Ltac binds H := repeat match type of H with
  | bind _ _ = Ok _ => let x := fresh "x" in let E := fresh "E" in apply bind_ok in H as (x & E & H)
  end; injection H as <-.
Ltac field R := first
  [ eapply (req_good _ _ _ _ _ _ _ _ R); [eassumption| |eassumption]; lia
  | eapply (dflt_good _ _ _ _ _ _ _ _ _ R); [|eassumption| |eassumption]; [|lia] ].
Ltac lits := apply good_lit; vm_compute; reflexivity.
Ltac fin := repeat first [apply Forall_nil | apply Forall_cons; [split; cbn [fst snd]; [lits|]|]].
Ltac start := apply r_struct; intros n m a H F L; binds H; rewrite Nat.add_0_r.

Definition c_candidate (c : Candidate) : cval :=
  CMap ([(CText (lit "id"), CText (cand_id c))] ++ c_skip (lit "properties") (cand_props c)).
Definition c_contest (c : Contest) : cval :=
  CMap ([(CText (lit "id"), CText (cont_id c)); (CText (lit "index"), ser_u (cont_index c));
         (CText (lit "contest_type"), CText (ct_name (cont_type c)));
         (CText (lit "num_winners"), ser_u (cont_winners c));
         (CText (lit "write_in"), CBool (cont_write_in c));
         (CText (lit "candidates"), ser_list c_candidate (cont_candidates c))]
        ++ c_skip (lit "properties") (cont_props c)).
Definition c_ballot (b : Ballot) : cval :=
  CMap ([(CText (lit "id"), CText (bal_id b)); (CText (lit "contests"), ser_list ser_u (bal_contests b))]
        ++ c_skip (lit "properties") (bal_props b)).
Lemma content_jlist {A} (f : A -> jval) (g : A -> cval) l : (forall a, In a l -> content (f a) = g a) -> content (jlist f l) = ser_list g l.
Proof. intros H. unfold jlist, ser_list. cbn [content]. rewrite map_map. f_equal. apply map_ext_in, H. Qed.
Lemma tl_list {A} (s : A -> cval) l : (forall a, In a l -> text_like (s a) = true) -> text_like (ser_list s l) = true.
Proof. intros H. unfold ser_list. cbn [text_like]. apply forallb_forall. intros x I. apply in_map_iff in I as (a & <- & I). auto. Qed.
Lemma content_candidate c : content (j_candidate c) = c_candidate c.
Proof. unfold j_candidate, c_candidate. cbn [content]. rewrite map_app, content_skip. reflexivity. Qed.
Lemma content_contest c : content (j_contest c) = c_contest c.
Proof.
  unfold j_contest, c_contest. cbn [content]. rewrite map_app, content_skip. cbn [map].
  rewrite !content_to_json by reflexivity. rewrite (content_jlist _ c_candidate) by (intros; apply content_candidate). reflexivity.
Qed.
Lemma content_ballot b : content (j_ballot b) = c_ballot b.
Proof.
  unfold j_ballot, c_ballot. cbn [content]. rewrite map_app, content_skip. cbn [map].
  rewrite content_to_json by (apply tl_list; reflexivity). reflexivity.
Qed.
Lemma de_c_candidate c : de_candidate (c_candidate c) = Ok c.
Proof. destruct c as [i p]. unfold de_candidate, c_candidate. struct. cbn [cand_id cand_props de_text bind]. props p; reflexivity. Qed.
Lemma de_c_contest c : de_contest (c_contest c) = Ok c.
Proof.
  destruct c as [i x t w wi cs p]. unfold de_contest, c_contest. struct.
  cbn [cont_id cont_index cont_type cont_winners cont_write_in cont_candidates cont_props de_text de_bool].
  step de_ser_u32. step de_ser_ct. step de_ser_u32.
  rewrite de_ser_list by (intros; apply de_c_candidate). cbn [bind]. props p; reflexivity.
Qed.
Lemma de_c_ballot b : de_ballot (c_ballot b) = Ok b.
Proof.
  destruct b as [i cs p]. unfold de_ballot, c_ballot. struct. cbn [bal_id bal_contests bal_props de_text]. cbn [bind].
  rewrite de_ser_list by (intros; apply de_ser_u32). cbn [bind]. props p; reflexivity.
Qed.
Lemma r_ccandidate : reser 0 de_candidate c_candidate 2.
Proof.
  start. apply good_fields; cbn [cand_id cand_props].
  - unfold clen. rewrite app_length. pose proof (cskip_len (lit "properties") x0). apply small. cbn [List.length]. lia.
  - rewrite <- (Nat.add_0_r n). apply Forall_app. split; [fin; field (r_text 0)|]. apply cskip_good; [lits|]. field r_cprops.
    split; [reflexivity|cbn; lia].
Qed.
Lemma r_ccontest : reser 0 de_contest c_contest 4.
Proof.
  start. apply good_fields; cbn [cont_id cont_index cont_type cont_winners cont_write_in cont_candidates cont_props].
  - unfold clen. rewrite app_length. pose proof (cskip_len (lit "properties") x5). apply small. cbn [List.length]. lia.
  - rewrite <- (Nat.add_0_r n). apply Forall_app. split; [fin|apply cskip_good; [lits|field r_cprops; split; [reflexivity|cbn; lia]]].
    + field (r_text 0). + field (r_u 0 4). + field (r_ct 0). + field (r_u 0 4). + field (r_bool 0).
    + field (r_list 0 _ _ _ r_ccandidate).
Qed.
Lemma r_cballot : reser 0 de_ballot c_ballot 3.
Proof.
  start. apply good_fields; cbn [bal_id bal_contests bal_props].
  - unfold clen. rewrite app_length. pose proof (cskip_len (lit "properties") x1). apply small. cbn [List.length]. lia.
  - rewrite <- (Nat.add_0_r n). apply Forall_app. split; [fin|apply cskip_good; [lits|field r_cprops; split; [reflexivity|cbn; lia]]].
    + field (r_text 0). + field (r_list 0 _ _ _ (r_u 0 4)).
Qed.

Section T.
  Context {C : Crypto}.
  Definition c_authenticator (a : Authenticator) : cval :=
    CMap [(CText (lit "id"), c_uuid (au_id a)); (CText (lit "public_keys"), h_keys (au_keys a))].
  Definition c_authentication (a : Authentication) : cval :=
    CMap [(CText (lit "authenticator"), c_uuid (an_authenticator a)); (CText (lit "signature"), hex_text (an_signature a))].
  Definition c_shares (s : imap Byte.eqb bytes) : cval := CArr (map (fun '(k, v) => CArr [ser_u8 k; hex_text v]) (sv s)).
  Definition c_election (t : ElectionTx) : cval :=
    CMap [(CText (lit "id"), ser_id (el_id t));
          (CText (lit "authority_public"), h_pk (el_authority t));
          (CText (lit "trustees"), ser_list h_trustee (el_trustees t));
          (CText (lit "trustees_threshold"), ser_u8 (el_threshold t));
          (CText (lit "authenticators"), ser_list c_authenticator (el_authenticators t));
          (CText (lit "authenticators_threshold"), ser_u8 (el_auth_threshold t));
          (CText (lit "mix_config"), ser_opt ser_mixconfig (el_mix_config t));
          (CText (lit "ballots"), ser_list c_ballot (el_ballots t));
          (CText (lit "contests"), ser_list c_contest (el_contests t));
          (CText (lit "properties"), c_props (el_props t))].
  Definition c_share (t : ShareTx) : cval :=
    CMap [(CText (lit "id"), ser_id (ks_id t)); (CText (lit "election"), ser_id (ks_election t));
          (CText (lit "trustee_index"), ser_u8 (ks_trustee t));
          (CText (lit "trustee_public_key"), h_pk (ks_public t));
          (CText (lit "shares"), c_shares (ks_shares t))].
  Definition c_vote (t : VoteTx) : cval :=
    CMap [(CText (lit "id"), ser_id (vt_id t)); (CText (lit "election"), ser_id (vt_election t));
          (CText (lit "ballot_id"), CText (vt_ballot t));
          (CText (lit "encrypted_votes"), ser_list ser_encvote (vt_votes t));
          (CText (lit "anonymous_key"), h_pk (vt_key t));
          (CText (lit "authentication"), ser_list c_authentication (vt_authn t))].
  Definition c_tx (t : Tx) : cval :=
    match t with XElection t => c_election t | XShare t => c_share t | XVote t => c_vote t | t => h_tx t end.
  Definition c_stx (x : STx) : cval :=
    CMap [(CText (lit "type"), CText (tag_name (s_type x))); (CText (lit "tx"), c_tx (s_tx x)); (CText (lit "sig"), h_sig (s_sig x))].


  Lemma de_h_arr n (a : arr n) : de_arr n (hex_text (arr_l a)) = Ok a.
  Proof. unfold de_arr, hex_text. cbn [de_raw sv]. rewrite hex_decode_encode. cbn [ok_or bind]. rewrite arr_of_arr. reflexivity. Qed.
  Lemma de_h_pk p : de_pk (h_pk p) = Ok p.
  Proof. unfold de_pk, h_pk. rewrite de_h_arr. cbn [bind]. rewrite sub_of_sv. reflexivity. Qed.
  Lemma de_h_sig s : de_sig (h_sig s) = Ok s.
  Proof. unfold de_sig, h_sig. rewrite de_h_arr. cbn [bind]. rewrite sub_of_sv. reflexivity. Qed.
  Lemma de_h_trustee t : de_trustee (h_trustee t) = Ok (norm_trustee t).
  Proof.
    destruct t as [p i n th]. unfold de_trustee, h_trustee. struct. cbn [tr_public_key tr_index].
    step de_h_pk. step de_ser_u8. reflexivity.
  Qed.
  Lemma de_h_keys m : de_imap rs_eqb de_text de_key (h_keys m) = Ok m.
  Proof.
    apply (de_imap_ok rs_eqb de_text de_key CText (fun v : AuthPublicKey => hex_text (sv v))); auto using rs_eqb_eq.
    intros v. unfold de_key, hex_text. cbn [de_raw sv]. rewrite hex_decode_encode. cbn [ok_or bind]. rewrite sub_of_sv. reflexivity.
  Qed.
  Lemma de_h_commitment t : de_commitment (h_commitment t) = Ok t.
  Proof.
    unfold de_commitment, h_commitment. struct.
    step de_ser_id. step de_ser_id. step de_ser_u8. step de_h_pk. step de_h_arr.
    rewrite de_sub_sv. destruct t; reflexivity.
  Qed.
  Lemma de_h_pubkey t : de_pubkey (h_pubkey t) = Ok t.
  Proof.
    unfold de_pubkey, h_pubkey. struct.
    step de_ser_id. step de_ser_id. step de_ser_u8. step de_h_pk.
    rewrite !de_sub_sv. destruct t; reflexivity.
  Qed.
  Lemma de_h_enckey t : de_enckey (h_enckey t) = Ok t.
  Proof.
    unfold de_enckey, h_enckey. struct.
    step de_ser_id. step de_ser_id. step de_h_pk. rewrite !de_sub_sv. destruct t; reflexivity.
  Qed.
  Lemma de_h_votingend t : de_votingend (h_votingend t) = Ok t.
  Proof.
    unfold de_votingend, h_votingend. struct.
    step de_ser_id. step de_ser_id. step de_h_pk. destruct t; reflexivity.
  Qed.
  Lemma de_h_mix t : de_mix (h_mix t) = Ok t.
  Proof.
    unfold de_mix, h_mix. struct.
    step de_ser_id. step de_ser_id. rewrite de_ser_opt by (try discriminate; apply de_ser_id). cbn [bind].
    step de_ser_u8. step de_h_pk. step de_ser_u8. step de_ser_u32. step de_ser_u32.
    rewrite de_ser_list by (intros; apply de_ser_id). cbn [bind].
    rewrite de_ser_list by (intros; apply de_ser_list; intros; apply de_sub_sv). cbn [bind].
    rewrite de_sub_sv. destruct t; reflexivity.
  Qed.
  Lemma de_h_partial t : de_partial (h_partial t) = Ok t.
  Proof.
    unfold de_partial, h_partial. struct.
    step de_ser_id. step de_ser_id. step de_ser_id. step de_ser_u16. step de_ser_u32.
    step de_ser_u8. step de_h_pk.
    rewrite de_ser_list by (intros; apply de_sub_sv). destruct t; reflexivity.
  Qed.

  (** library values *)
  Lemma tl_keys m : text_like (h_keys m) = true.
  Proof. unfold h_keys. cbn [text_like]. apply forallb_forall. intros x I. apply in_map_iff in I as ([k v] & <- & _). reflexivity. Qed.
  Lemma tl_votes l : (forall e c, In e l -> In c (ev_selections e) -> text_like (sv c) = true) -> text_like (ser_list ser_encvote l) = true.
  Proof.
    intros H. apply tl_list. intros e I. unfold ser_encvote. cbn [text_like forallb]. rewrite andb_true_r. apply tl_list. intros c J. exact (H e c I J).
  Qed.
  Lemma tl_opt {A} (s : A -> cval) o : (forall a, text_like (s a) = true) -> text_like (ser_opt s o) = true.
  Proof. destruct o; [intros H; apply H|reflexivity]. Qed.
  Lemma tl_mixconfig m : text_like (ser_mixconfig m) = true.
  Proof. destruct m as [t [b|]]; reflexivity. Qed.
  Ltac tl := repeat first [reflexivity | apply tl_keys | apply tl_votes; assumption | apply tl_mixconfig | apply tl_opt; intros | apply tl_list; intros].
  Ltac flds := cbn [text_like forallb ser_id h_pk h_trustee ser_u8 ser_u h_sig hex_text andb]; rewrite ?andb_true_r, ?andb_true_iff.
  Lemma tl_tx t : text_forms t -> match t with XElection _ | XShare _ | XVote _ => True | _ => text_like (h_tx t) = true end.
  Proof.
    destruct t as [t|t|t|t|t|t|t|t|t|t]; cbn [text_forms h_tx ser_tx]; intros H; try exact I.
    - unfold h_commitment. flds. exact H.
    - unfold h_pubkey. flds. exact H.
    - unfold h_enckey. flds. exact H.
    - reflexivity.
    - destruct H as [H1 H2]. unfold h_mix. flds. split; [tl|]. split; [tl|]. split; [|exact H2].
      apply tl_list. intros r I. apply tl_list. intros c J. exact (H1 r c I J).
    - unfold h_partial. flds. apply tl_list. exact H.
    - unfold ser_decryption. flds. split; tl.
  Qed.

  Lemma content_authenticator a : content (j_authenticator a) = c_authenticator a.
  Proof. unfold j_authenticator, c_authenticator. cbn [content map]. rewrite content_to_json by apply tl_keys. reflexivity. Qed.
  Lemma content_authentication a : content (j_authentication a) = c_authentication a.
  Proof. reflexivity. Qed.
  Lemma content_shares s : content (j_shares s) = c_shares s.
  Proof.
    unfold j_shares, c_shares. cbn [content]. rewrite map_map. f_equal. apply map_ext. intros [k v]. cbn [content map].
    rewrite !content_to_json by reflexivity. reflexivity.
  Qed.
  Lemma content_tx t : text_forms t -> content (j_tx t) = c_tx t.
  Proof.
    intros H. pose proof (tl_tx t H) as T. destruct t as [t|t|t|t|t|t|t|t|t|t]; cbn [j_tx c_tx]; try (apply content_to_json; exact T).
    - unfold j_election, c_election. cbn [content map]. rewrite !content_to_json by tl. rewrite content_props.
      rewrite (content_jlist _ c_authenticator) by (intros; apply content_authenticator).
      rewrite (content_jlist _ c_ballot) by (intros; apply content_ballot).
      rewrite (content_jlist _ c_contest) by (intros; apply content_contest). reflexivity.
    - unfold j_share, c_share. cbn [content map]. rewrite !content_to_json by reflexivity. rewrite content_shares. reflexivity.
    - cbn [text_forms] in H. unfold j_vote, c_vote. cbn [content map]. rewrite !content_to_json by tl.
      rewrite (content_jlist _ c_authentication) by (intros; apply content_authentication). reflexivity.
  Qed.
  Lemma content_stx x : text_forms (s_tx x) -> content (j_stx x) = c_stx x.
  Proof.
    intros H. unfold j_stx, c_stx. cbn [content map]. rewrite (content_tx _ H), content_to_json by reflexivity. reflexivity.
  Qed.

  Lemma de_c_authenticator a : de_authenticator (c_authenticator a) = Ok a.
  Proof. destruct a as [i k]. unfold de_authenticator, c_authenticator. struct. cbn [au_id au_keys]. step c_uuid_ok. rewrite de_h_keys. reflexivity. Qed.
  Lemma de_c_authentication a : de_authentication (c_authentication a) = Ok a.
  Proof.
    destruct a as [i k]. unfold de_authentication, c_authentication. struct. cbn [an_authenticator an_signature]. step c_uuid_ok.
    step de_hex_text. reflexivity.
  Qed.
  Lemma de_c_election t : de_election (c_election t) = Ok (norm_election t).
  Proof.
    destruct t as [i a ts th aus ath mc bs cs p]. unfold de_election, c_election. struct.
    cbn [el_id el_authority el_trustees el_threshold el_authenticators el_auth_threshold el_mix_config
         el_ballots el_contests el_props].
    step de_ser_id. step de_h_pk.
    unfold de_list at 1, ser_list at 1. rewrite (map_res_map _ _ norm_trustee) by (intros; apply de_h_trustee).
    cbn [bind]. step de_ser_u8.
    rewrite de_ser_list by (intros; apply de_c_authenticator). cbn [bind]. step de_ser_u8.
    rewrite de_ser_opt by (try discriminate; apply de_ser_mixconfig). cbn [bind].
    rewrite de_ser_list by (intros; apply de_c_ballot). cbn [bind].
    rewrite de_ser_list by (intros; apply de_c_contest). cbn [bind].
    rewrite de_c_props. reflexivity.
  Qed.
  Lemma de_c_share t : de_share (c_share t) = Ok t.
  Proof.
    unfold de_share, c_share. struct.
    step de_ser_id. step de_ser_id. step de_ser_u8. step de_h_pk.
    unfold c_shares. rewrite (de_imap_seq_ok Byte.eqb de_u8 de_raw ser_u8 hex_text); auto using byte_eqb_eq, de_ser_u8.
    - destruct t; reflexivity.
    - intros v. cbn [de_raw hex_text sv]. rewrite hex_decode_encode. reflexivity.
  Qed.
  Lemma de_c_vote t : de_vote (c_vote t) = Ok t.
  Proof.
    unfold de_vote, c_vote. struct.
    step de_ser_id. step de_ser_id. cbn [de_text bind].
    rewrite de_ser_list by (intros; apply de_ser_encvote). cbn [bind]. step de_h_pk.
    rewrite de_ser_list by (intros; apply de_c_authentication). destruct t; reflexivity.
  Qed.
  Lemma de_c_tx t : de_tx (tx_type t) (c_tx t) = Ok (norm_tx t).
  Proof.
    destruct t; cbn [c_tx h_tx tx_type de_tx norm_tx ser_tx];
      rewrite ?de_c_election, ?de_c_share, ?de_c_vote, ?de_h_commitment, ?de_h_pubkey, ?de_h_enckey, ?de_h_votingend, ?de_h_mix,
        ?de_h_partial, ?de_ser_decryption; reflexivity.
  Qed.
  Lemma de_c_stx x : de_stx (c_stx x) = Ok (norm_stx x).
  Proof.
    unfold de_stx, c_stx. struct. rewrite de_ser_tag. cbn [bind]. unfold s_type. rewrite de_c_tx. cbn [bind]. rewrite de_h_sig. reflexivity.
  Qed.

  (** numerals *)
  Lemma nums_jlist {A} (f : A -> jval) l : (forall a, In a l -> jnums (f a) = true) -> jnums (jlist f l) = true.
  Proof. intros H. unfold jlist. cbn [jnums]. apply forallb_forall. intros x I. apply in_map_iff in I as (a & <- & I). auto. Qed.
  Lemma nums_props p : jnums (j_props p) = true.
  Proof. unfold j_props. cbn [jnums]. apply forallb_forall. intros x I. apply in_map_iff in I as ([k v] & <- & _). apply jok_nums, (s_ok v). Qed.
  Lemma nums_skip k p : forallb (fun q => match q with (_, v) => jnums v end) (j_skip k p) = true.
  Proof. unfold j_skip. destruct (sv p); [reflexivity|]. cbn [forallb]. rewrite nums_props. reflexivity. Qed.
  Lemma nums_candidate c : jnums (j_candidate c) = true.
  Proof. unfold j_candidate. cbn [jnums]. rewrite forallb_app, nums_skip. reflexivity. Qed.
  Ltac nm := repeat rewrite to_json_nums by tl.
  Lemma nums_contest c : jnums (j_contest c) = true.
  Proof.
    unfold j_contest. cbn [jnums]. rewrite forallb_app, nums_skip. cbn [forallb]. nm.
    rewrite (nums_jlist j_candidate) by (intros; apply nums_candidate). reflexivity.
  Qed.
  Lemma nums_ballot c : jnums (j_ballot c) = true.
  Proof. unfold j_ballot. cbn [jnums]. rewrite forallb_app, nums_skip. cbn [forallb]. nm. reflexivity. Qed.
  Lemma nums_tx t : text_forms t -> jnums (j_tx t) = true.
  Proof.
    intros H. pose proof (tl_tx t H) as T. destruct t as [t|t|t|t|t|t|t|t|t|t]; cbn [j_tx]; try (apply to_json_nums; exact T).
    - unfold j_election. cbn [jnums forallb]. nm. rewrite nums_props.
      rewrite (nums_jlist j_authenticator) by (intros a _; unfold j_authenticator; cbn [jnums forallb]; nm; reflexivity).
      rewrite (nums_jlist j_ballot) by (intros; apply nums_ballot). rewrite (nums_jlist j_contest) by (intros; apply nums_contest). reflexivity.
    - unfold j_share. cbn [jnums forallb]. nm. cbn [andb]. rewrite andb_true_r. unfold j_shares. cbn [jnums]. apply forallb_forall.
      intros x I. apply in_map_iff in I as ([k v] & <- & _). cbn [jnums forallb]. nm. reflexivity.
    - cbn [text_forms] in H. unfold j_vote. cbn [jnums forallb]. nm.
      rewrite (nums_jlist j_authentication) by (intros a _; unfold j_authentication; cbn [jnums forallb]; nm; reflexivity). reflexivity.
  Qed.
  Lemma nums_stx x : text_forms (s_tx x) -> jnums (j_stx x) = true.
  Proof. intros H. unfold j_stx. cbn [jnums forallb]. rewrite (nums_tx _ H). nm. reflexivity. Qed.

  (** depth *)
  Lemma r_hpk : reser 0 de_pk h_pk 0.
  Proof. intros n v a _ _ _. apply good_hex. rewrite arr_len. lia. Qed.
  Lemma r_htrustee : reser 0 de_trustee h_trustee 1.
  Proof.
    start. apply good_fields; [apply small; cbn; lia|]. cbn [tr_public_key tr_index]. rewrite <- (Nat.add_0_r n). fin.
    - field r_hpk. - apply good_uint.
  Qed.
  (* with the keys as bytes: their text is twice as long, which does not matter for the depth *)
  Definition k_authenticator (a : Authenticator) : cval :=
    CMap [(CText (lit "id"), c_uuid (au_id a)); (CText (lit "public_keys"), ser_keys (au_keys a))].
  Definition k_election (t : ElectionTx) : cval :=
    CMap [(CText (lit "id"), ser_id (el_id t));
          (CText (lit "authority_public"), h_pk (el_authority t));
          (CText (lit "trustees"), ser_list h_trustee (el_trustees t));
          (CText (lit "trustees_threshold"), ser_u8 (el_threshold t));
          (CText (lit "authenticators"), ser_list k_authenticator (el_authenticators t));
          (CText (lit "authenticators_threshold"), ser_u8 (el_auth_threshold t));
          (CText (lit "mix_config"), ser_opt ser_mixconfig (el_mix_config t));
          (CText (lit "ballots"), ser_list c_ballot (el_ballots t));
          (CText (lit "contests"), ser_list c_contest (el_contests t));
          (CText (lit "properties"), c_props (el_props t))].
  Lemma hkeys_depth m : cdepth (h_keys m) = cdepth (ser_keys m).
  Proof. unfold h_keys, ser_keys. cbn [cdepth]. f_equal. induction (sv m) as [|[k v] l IH]; [reflexivity|]. cbn [map fold_right]. rewrite IH. reflexivity. Qed.
  Lemma list_depth {A} (f g : A -> cval) l : (forall a, cdepth (f a) = cdepth (g a)) -> cdepth (ser_list f l) = cdepth (ser_list g l).
  Proof. intros H. unfold ser_list. cbn [cdepth]. f_equal. induction l as [|a l IH]; [reflexivity|]. cbn [map fold_right]. rewrite IH, H. reflexivity. Qed.
  Lemma celection_depth t : cdepth (c_election t) = cdepth (k_election t).
  Proof.
    assert (E : cdepth (ser_list c_authenticator (el_authenticators t)) = cdepth (ser_list k_authenticator (el_authenticators t))).
    { apply list_depth. intros a. unfold c_authenticator, k_authenticator. cbn [cdepth fold_right]. rewrite hkeys_depth. reflexivity. }
    unfold c_election, k_election. cbn [cdepth fold_right]. rewrite E. reflexivity.
  Qed.
  Lemma r_kauthenticator : reser 0 de_authenticator k_authenticator 2.
  Proof.
    start. apply good_fields; [apply small; cbn; lia|]. cbn [au_id au_keys]. rewrite <- (Nat.add_0_r n). fin.
    - field (r_cuuid 0).
    - field (r_imap 0 rs_eqb de_text de_key CText (fun k => CBytes (sv k)) 0 0 (r_text 0) (r_key 0)).
  Qed.
  Lemma r_cauthentication : reser 0 de_authentication c_authentication 1.
  Proof.
    start. apply good_fields; [apply small; cbn; lia|]. cbn [an_authenticator an_signature]. rewrite <- (Nat.add_0_r n). fin.
    - field (r_cuuid 0). - field (r_hex 0).
  Qed.
  Lemma r_kelection : reser 0 de_election k_election 6.
  Proof.
    start. apply good_fields; [apply small; cbn; lia|].
    cbn [el_id el_authority el_trustees el_threshold el_authenticators el_auth_threshold el_mix_config el_ballots el_contests el_props].
    rewrite <- (Nat.add_0_r n). fin.
    - field (r_id 0). - field r_hpk. - field (r_list 0 _ _ _ r_htrustee). - apply good_uint.
    - field (r_list 0 _ _ _ r_kauthenticator). - apply good_uint.
    - field (r_opt 0 _ _ _ (r_mixconfig 0)). apply good_null.
    - field (r_list 0 _ _ _ r_cballot). - field (r_list 0 _ _ _ r_ccontest).
    - field r_cprops. split; [reflexivity|cbn; lia].
  Qed.
  Lemma r_cvote : reser 0 de_vote c_vote 4.
  Proof.
    start. apply good_fields; [apply small; cbn; lia|]. cbn [vt_id vt_election vt_ballot vt_votes vt_key vt_authn]. rewrite <- (Nat.add_0_r n). fin.
    - field (r_id 0). - field (r_id 0). - field (r_text 0). - field (r_list 0 _ _ _ (r_encvote 0)). - field r_hpk.
    - field (r_list 0 _ _ _ r_cauthentication).
  Qed.
  Lemma cshare_depth t : cdepth (c_share t) = cdepth (ser_share t).
  Proof.
    assert (E : cdepth (c_shares (ks_shares t)) = cdepth (ser_shares (ks_shares t))).
    { unfold c_shares, ser_shares. cbn [cdepth]. f_equal. induction (sv (ks_shares t)) as [|[k v] l IH]; [reflexivity|].
      cbn [map fold_right]. rewrite IH. reflexivity. }
    unfold c_share, ser_share. cbn [cdepth fold_right]. rewrite E. reflexivity.
  Qed.
  Lemma ctx_depth t v a n : de_tx t v = Ok a -> good n v -> 6 <= n -> cdepth (c_tx a) <= n.
  Proof.
    intros H G L. destruct (tt_eqb t TElection) eqn:T.
    - apply tt_eqb_eq in T. subst t. apply bind_ok in H as (x & H & X). injection X as <-. pose proof (r_kelection n v x H G L) as [_ B]. cbn [c_tx]. rewrite celection_depth. lia.
    - destruct (tt_eqb t TVote) eqn:T'.
      + apply tt_eqb_eq in T'. subst t. apply bind_ok in H as (x & H & X). injection X as <-. pose proof (r_cvote n v x H G ltac:(lia)) as [_ B]. cbn [c_tx]. lia.
      + assert (N : t = TElection -> 1 <= 0) by (intros ->; discriminate). pose proof (r_tx 0 t N n v a H G L) as [_ B].
        rewrite Nat.add_0_r in B. pose proof (de_tx_type _ _ _ H) as Ty.
        destruct a; cbn [c_tx h_tx]; try exact B; [cbn [tx_type] in Ty; subst t; discriminate| |cbn [tx_type] in Ty; subst t; discriminate].
        rewrite cshare_depth. exact B.
  Qed.
  Lemma cstx_depth v x n : de_stx v = Ok x -> good n v -> 7 <= n -> cdepth (c_stx x) <= n.
  Proof.
    intros E G L. destruct v as [| | | | |l| | | |]; try discriminate. destruct n as [|n]; [lia|]. apply good_map in G as [_ F].
    cbn [de_stx de_struct] in E. rename E into H. binds H. unfold c_stx. cbn [cdepth fold_right s_tx s_sig].
    assert (Tx : cdepth (c_tx x1) <= n).
    { unfold req in E0. destruct (lookup (lit "tx") l) as [|w []] eqn:Q; try discriminate.
      destruct (lookup_in (lit "tx") l w) as (k & I); [rewrite Q; left; reflexivity|]. apply (ctx_depth x0 w x1 n E0 (proj2 (F _ _ I))). lia. }
    change (cdepth (h_sig x2)) with 0. lia.
  Qed.
  (** what arrives in CBOR is not deeper in JSON *)
  Theorem json_depth p x : stx_from_bytes p = Ok x -> text_forms (s_tx x) -> jdepth (j_stx x) <= max_depth.
  Proof.
    intros H T. destruct (read_both _ _ H) as (v & S & D). pose proof (slice_good _ _ S) as G.
    assert (M : 7 <= max_depth) by (unfold max_depth; lia). pose proof (cstx_depth v x _ D G M) as B.
    pose proof (content_depth (j_stx x)) as E. rewrite (content_stx x T) in E. eapply Nat.le_trans; eauto.
  Qed.
  Lemma json_nested n p x : stx_from_bytes p = Ok x -> text_forms (s_tx x) -> nested n p -> 7 <= n -> jdepth (j_stx x) <= n.
  Proof.
    intros H T N L. destruct (read_both _ _ H) as (v & S & D). pose proof (slice_good _ _ S) as [G _].
    pose proof (cstx_depth v x n D (conj G (N v S)) L) as B.
    pose proof (content_depth (j_stx x)) as E. rewrite (content_stx x T) in E. eapply Nat.le_trans; eauto.
  Qed.

  (** ** the texts *)
  Theorem json_roundtrip x : text_forms (s_tx x) -> jdepth (j_stx x) <= max_depth -> stx_from_json (stx_json x) = Ok (norm_stx x).
  Proof.
    intros T D. unfold stx_from_json, stx_json. rewrite (jparse_print _ (nums_stx x T) D), (content_stx x T). apply de_c_stx.
  Qed.
  Theorem pretty_roundtrip x : text_forms (s_tx x) -> jdepth (j_stx x) <= max_depth -> stx_from_json (stx_pretty x) = Ok (norm_stx x).
  Proof.
    intros T D. unfold stx_from_json, stx_pretty. rewrite (jparse_pretty _ (nums_stx x T) D), (content_stx x T). apply de_c_stx.
  Qed.
  Lemma jlist_depth {A} (f : A -> jval) l n : (forall a, In a l -> jdepth (f a) <= n) -> jdepth (jlist f l) <= S n.
  Proof.
    intros H. unfold jlist. cbn [jdepth]. induction l as [|a l IH]; cbn [map fold_right]; [lia|].
    pose proof (H a (or_introl eq_refl)). assert (forall a, In a l -> jdepth (f a) <= n) by (intros; apply H; right; assumption). specialize (IH H1). lia.
  Qed.
  Theorem jsons_roundtrip l : (forall x, In x l -> text_forms (s_tx x)) -> (forall x, In x l -> S (jdepth (j_stx x)) <= max_depth) ->
    stxs_from_json (stxs_json l) = Ok (map norm_stx l).
  Proof.
    intros T D. unfold stxs_from_json, stxs_json. rewrite jparse_print.
    - rewrite (content_jlist _ c_stx) by (intros; apply content_stx; auto). unfold de_list, ser_list.
      apply map_res_map. intros x _. apply de_c_stx.
    - apply nums_jlist. intros x I. apply nums_stx, T, I.
    - assert (M : max_depth = S (Nat.pred max_depth)) by (unfold max_depth; lia). rewrite M. apply jlist_depth. intros x I. specialize (D x I). lia.
  Qed.
End T.
