(** * ReserFacts: a decoded transaction can be encoded and decoded again.

    The encoder has no depth limit while the decoder has one, so re-encoding a decoded value must
    not make it deeper.  [reser e d s k]: whatever [d] reads from an item of depth at most [n] (with
    [k <= n]), [s] writes as a well-formed item of depth at most [n + e].  A JSON number read from a
    CBOR integer is written as a map, so that elections need [e = 1]; everything else has [e = 0]. *)
From Verif Require Import Base BaseFacts Hex HexFacts Utf8 Cbor CborFacts Value ValueFacts Ident IdentFacts Crypto Types Serde SpecSerde SerdeFacts.
From Coq Require Strings.String.
Import String.StringSyntax.
Open Scope list_scope.

Definition good (n : nat) (v : cval) : Prop := cwf v = true /\ cdepth v <= n.
Lemma good_mono n m v : n <= m -> good n v -> good m v.
Proof. intros L [A B]. split; [exact A|lia]. Qed.

Lemma fmax_le {A} (f : A -> nat) l d :
  S (fold_right (fun x m => Nat.max (f x) m) 0 l) <= S d <-> forall x, In x l -> f x <= d.
Proof.
  split; [intros H; apply fold_max_le; lia|].
  induction l as [|a l IH]; intros H; cbn [fold_right]; [lia|].
  pose proof (H a (or_introl eq_refl)). assert (forall x, In x l -> f x <= d) by (intros; apply H; right; assumption).
  specialize (IH H1). lia.
Qed.
Lemma good_arr n l : good (S n) (CArr l) <-> (clen l < pow256 8)%N /\ forall x, In x l -> good n x.
Proof.
  unfold good. cbn [cwf cdepth]. rewrite andb_true_iff, N.ltb_lt, forallb_forall.
  rewrite fmax_le. split.
  - intros [[A B] D]. split; [exact A|]. intros x I. split; auto.
  - intros [A B]. repeat split; [exact A| |]; intros x I; apply (B x I).
Qed.
Lemma good_map n l :
  good (S n) (CMap l) <-> (clen l < pow256 8)%N /\ forall a b, In (a, b) l -> good n a /\ good n b.
Proof.
  unfold good. cbn [cwf cdepth]. rewrite andb_true_iff, N.ltb_lt, forallb_forall.
  assert (E : fold_right (fun p m => match p with (a, b) => Nat.max (Nat.max (cdepth a) (cdepth b)) m end) 0 l
            = fold_right (fun p m => Nat.max ((fun p => Nat.max (cdepth (fst p)) (cdepth (snd p))) p) m) 0 l).
  { clear. induction l as [|[a b] l IH]; [reflexivity|]. cbn [fold_right fst snd]. rewrite IH. reflexivity. }
  rewrite E, (fmax_le (fun p => Nat.max (cdepth (fst p)) (cdepth (snd p)))). split.
  - intros [[A B] D]. split; [exact A|]. intros a b I. specialize (B _ I). specialize (D _ I). cbn [fst snd] in D.
    cbn beta iota in B. apply andb_true_iff in B as [B1 B2]. repeat split; auto; lia.
  - intros [A B]. repeat split; [exact A| |].
    + intros [a b] I. destruct (B a b I) as [[] []]. apply andb_true_iff. auto.
    + intros [a b] I. destruct (B a b I) as [[] []]. cbn [fst snd]. lia.
Qed.

(** ** the decoder only produces well-formed items within its depth *)
Lemma dhead_lt l m ai n r : dhead l = Some (m, ai, n, r) -> (n < pow256 8)%N.
Proof.
  unfold dhead. destruct l as [|b l]; [discriminate|]. set (a := N.modulo (u8v b) 32).
  destruct (N.ltb_spec a 24).
  { intros K. injection K as <- <- <- <-. assert (24 < pow256 8)%N by (vm_compute; reflexivity). lia. }
  assert (T : forall k n r', k <= 8 -> take_be k l = Some (n, r') -> (n < pow256 8)%N).
  { intros k n' r' Hk. unfold take_be. destruct (Nat.leb_spec k (length l)) as [L|L]; [|discriminate]. intros K. injection K as <- <-.
    pose proof (be_val_lt (firstn k l)) as X. rewrite firstn_length_le in X by lia. pose proof (pow256_mono k 8 Hk). lia. }
  destruct (a =? 24)%N; [destruct (take_be 1 l) as [[]|] eqn:E|destruct (a =? 25)%N; [destruct (take_be 2 l) as [[]|] eqn:E|
    destruct (a =? 26)%N; [destruct (take_be 4 l) as [[]|] eqn:E|destruct (a =? 27)%N; [destruct (take_be 8 l) as [[]|] eqn:E|]]]];
  intros K; try discriminate; injection K as <- <- <- <-; eapply T in E; eauto; lia.
Qed.
Lemma ditems_all {A} (dec : bytes -> option (A * bytes)) (P : A -> Prop) :
  (forall l a r, dec l = Some (a, r) -> P a) ->
  forall f n l xs r, ditems dec f n l = Some (xs, r) -> clen xs = n /\ forall x, In x xs -> P x.
Proof.
  intros H. induction f as [|f IH]; intros n l xs r; cbn [ditems]; destruct (N.eqb_spec n 0) as [->|N0].
  1,3: intros K; injection K as <- <-; split; [reflexivity|intros x []].
  { discriminate. }
  destruct (dec l) as [[a r0]|] eqn:E; [|discriminate].
  destruct (ditems dec f (n - 1) r0) as [[ys r1]|] eqn:F; [|discriminate]. intros K. injection K as <- <-.
  apply IH in F as [F1 F2]. split.
  - unfold clen in *. cbn [length]. lia.
  - intros x [<-|I]; [eapply H; eauto|auto].
Qed.
Lemma take_bytes_lt n l b r : take_bytes n l = Some (b, r) -> clen b = n.
Proof.
  unfold take_bytes. destruct (N.leb_spec n (clen l)) as [L|L]; [|discriminate]. intros K. injection K as <- <-.
  unfold clen in *. rewrite firstn_length_le by lia. lia.
Qed.
Lemma cdec_good : forall d l v r, cdec d l = Some (v, r) -> good d v.
Proof.
  induction d as [|d IH]; intros l v r; cbn [cdec]; destruct (dhead l) as [[[[m ai] n] r0]|] eqn:H; try discriminate;
  pose proof (dhead_lt _ _ _ _ _ H) as L.
  all: repeat match goal with |- context [if ?b then _ else _] => destruct b end; try discriminate.
  all: try (destruct (take_bytes n r0) as [[b r1]|] eqn:T; [|discriminate]; apply take_bytes_lt in T).
  all: try (destruct (sub_of utf8_valid b) as [s|] eqn:U; [|discriminate]; apply sub_of_some in U).
  all: try (intros K; injection K as <- <-; split; [|cbn [cdepth]; lia]; cbn [cwf]; try reflexivity; apply N.ltb_lt).
  all: try (rewrite ?U; lia).
  - destruct (ditems (cdec d) (length r0) n r0) as [[xs r1]|] eqn:E; [|discriminate]. intros K. injection K as <- <-.
    apply (ditems_all _ (good d)) in E as [E1 E2]; [|exact IH]. apply good_arr. split; [lia|exact E2].
  - destruct (ditems (dpair (cdec d) (cdec d)) (length r0) n r0) as [[xs r1]|] eqn:E; [|discriminate]. intros K. injection K as <- <-.
    apply (ditems_all _ (fun p => good d (fst p) /\ good d (snd p))) in E as [E1 E2].
    + apply good_map. split; [lia|]. intros a b I. apply (E2 _ I).
    + intros l0 [a b] r2. unfold dpair. destruct (cdec d l0) as [[a' ra]|] eqn:A; [|discriminate].
      destruct (cdec d ra) as [[b' rb]|] eqn:B; [|discriminate]. intros K. injection K as <- <- <-. cbn [fst snd]. split; eapply IH; eauto.
Qed.

(** ** whatever can be read has at most the depth of the reader *)
Lemma ditems_mono {A} (d1 d2 : bytes -> option (A * bytes)) : (forall l x, d1 l = Some x -> d2 l = Some x) ->
  forall f n l x, ditems d1 f n l = Some x -> ditems d2 f n l = Some x.
Proof.
  intros H. induction f as [|f IH]; intros n l x; cbn [ditems]; [auto|]. destruct (n =? 0)%N; [auto|].
  destruct (d1 l) as [[a r]|] eqn:E; [|discriminate]. rewrite (H _ _ E). destruct (ditems d1 f (n - 1) r) as [[ys r1]|] eqn:F; [|discriminate].
  rewrite (IH _ _ _ F). auto.
Qed.
Lemma cdec_mono d : forall d' l x, d <= d' -> cdec d l = Some x -> cdec d' l = Some x.
Proof.
  induction d as [|d IH]; intros d' l x Le.
  - destruct d' as [|d']; [auto|]. cbn [cdec]. destruct (dhead l) as [[[[m ai] n] r0]|]; [|auto].
    repeat match goal with |- context [if ?b then _ else _] => destruct b end; auto; discriminate.
  - destruct d' as [|d']; [lia|]. assert (L : d <= d') by lia. cbn [cdec]. destruct (dhead l) as [[[[m ai] n] r0]|]; [|auto].
    repeat match goal with |- context [if ?b then _ else _] => destruct b end; auto.
    + destruct (ditems (cdec d) _ _ _) as [[xs r1]|] eqn:E; [|discriminate]. rewrite (ditems_mono _ (cdec d') (fun l x => IH d' l x L) _ _ _ _ E). auto.
    + destruct (ditems (dpair (cdec d) (cdec d)) _ _ _) as [[xs r1]|] eqn:E; [|discriminate].
      erewrite (ditems_mono _ (dpair (cdec d') (cdec d'))); [|clear E|exact E]; [auto|].
      intros l0 p. unfold dpair. destruct (cdec d l0) as [[a ra]|] eqn:A; [|discriminate]. rewrite (IH d' _ _ L A).
      destruct (cdec d ra) as [[b rb]|] eqn:B; [|discriminate]. rewrite (IH d' _ _ L B). auto.
Qed.
Lemma depth_read d v w r : cwf v = true -> cdec d (cenc v) = Some (w, r) -> cdepth v <= d.
Proof.
  intros W E. destruct (cdec_good _ _ _ _ E) as [_ G].
  pose proof (cdec_cenc v (Nat.max d (cdepth v)) [] W (Nat.le_max_r _ _)) as E1. rewrite app_nil_r in E1.
  rewrite (cdec_mono _ _ _ _ (Nat.le_max_l d (cdepth v)) E) in E1. injection E1 as Ev _. rewrite <- Ev. exact G.
Qed.
Lemma slice_depth v w : cwf v = true -> cbor_from_slice (cenc v) = Some w -> cdepth v <= 127.
Proof.
  intros W. unfold cbor_from_slice. change max_depth with 127. generalize 127. intros d E.
  destruct (cdec d (cenc v)) as [[u r]|] eqn:D; [|discriminate E]. exact (depth_read d v u r W D).
Qed.

(** ** re-encoding *)
Lemma small n : n <= 1000 -> (N.of_nat n < pow256 8)%N.
Proof. intros H. assert (1000 < pow256 8)%N by (vm_compute; reflexivity). lia. Qed.
Lemma good_text n (s : rstring) : good n (CText s) <-> (clen (sv s) < pow256 8)%N.
Proof. unfold good. cbn [cwf cdepth]. rewrite N.ltb_lt. split; [intros [A _]|]; auto. split; [auto|lia]. Qed.
Lemma good_lit n (s : rstring) : Nat.leb (length (sv s)) 1000 = true -> good n (CText s).
Proof. intros H. apply good_text. apply small, Nat.leb_le, H. Qed.
Lemma good_hex n b : length b <= 500 -> good n (hex_text b).
Proof. intros H. apply good_text. cbn [sv]. unfold clen. rewrite hex_encode_length. apply small. lia. Qed.
Lemma good_hex_decoded n (s : rstring) b : hex_decode (sv s) = Some b -> good n (CText s) -> good n (hex_text b).
Proof.
  intros H G. apply good_text in G. apply good_text. cbn [sv hex_text].
  rewrite (hex_encode_decode _ _ H). unfold clen in *. rewrite map_length. exact G.
Qed.
Lemma good_bytes n b : good n (CBytes b) <-> (clen b < pow256 8)%N.
Proof. unfold good. cbn [cwf cdepth]. rewrite N.ltb_lt. split; [intros [A _]|]; auto. split; [auto|lia]. Qed.
Lemma good_uint n u : good n (CUint u).
Proof. split; [reflexivity|cbn; lia]. Qed.
Lemma good_bool n u : good n (CBool u).
Proof. split; [reflexivity|cbn; lia]. Qed.
Lemma good_null n : good n CNull.
Proof. split; [reflexivity|cbn; lia]. Qed.

(** a value: one level more at most *)
Lemma good_num n (t : rstring) : (clen (sv t) < pow256 8)%N -> good (S n) (CMap [(CText token, CText t)]).
Proof.
  intros H. apply good_map. split; [apply small; cbn; lia|]. intros a b [K|[]]. injection K as <- <-.
  split; [apply good_lit; vm_compute; reflexivity|apply good_text, H].
Qed.
Lemma reser_value v : forall n j, de_jval v = Some j -> good n v -> good (n + 1) (ser_jval j).
Proof.
  induction v as [n0|n0|b|s|b| |n0|n0|l IH|l IH] using cval_ind2; intros n j H G;
    try (injection H as <-; apply (good_mono n); [lia|exact G]); try discriminate.
  - apply num_text_some in H as (t & -> & E). rewrite Nat.add_comm. apply good_num. rewrite E. apply small.
    pose proof (dec_len 20 (uv n0)). unfold dec. lia.
  - cbn [de_jval] in H. destruct (uv n0 <? 2 ^ 63)%N; [|discriminate]. apply num_text_some in H as (t & -> & E).
    rewrite Nat.add_comm. apply good_num. rewrite E. apply small. pose proof (dec_len 20 (uv n0 + 1)). unfold neg_text. cbn [length]. lia.
  - cbn [de_jval] in H. destruct (all_some (map de_jval l)) as [r|] eqn:E; [|discriminate]. injection H as <-.
    apply all_some_inv in E. destruct n as [|n]; [destruct G as [_ G]; cbn [cdepth] in G; lia|]. apply good_arr in G as [G1 G2].
    change (S n + 1) with (S (n + 1)). cbn [ser_jval]. apply good_arr. split.
    + apply Forall2_len in E. unfold clen in *. rewrite map_length in *. lia.
    + intros x I. apply in_map_iff in I as (y & <- & I). destruct (Forall2_in_r _ _ _ _ E I) as (o & O & ->).
      apply in_map_iff in O as (c & Ec & O). rewrite Forall_forall in IH. apply (IH c O n y Ec), G2, O.
  - destruct n as [|n]; [destruct G as [_ G]; cbn [cdepth] in G; lia|]. apply good_map in G as [G1 G2].
    change (S n + 1) with (S (n + 1)). apply de_map_cases in H as [(s & -> & H)|(ps & F & E & ->)].
    + apply num_from_some in H as (t & -> & _ & L). apply good_num. destruct (G2 _ _ (or_introl eq_refl)) as [_ G].
      apply good_text in G. unfold clen in *. lia.
    + cbn [ser_jval]. destruct (ibuild_all rs_eqb ps (fun k => good (n + 1) (CText k)) (fun v => good (n + 1) (ser_jval v))) as [B1 B2].
      { intros [k w] I. destruct (Forall2_in_r _ _ _ _ F I) as ([a b] & Ci & Ca & Cd). cbn [fst snd] in *. subst a.
        destruct (G2 _ _ Ci) as [Ga Gb]. split; [apply (good_mono n); [lia|exact Ga]|]. rewrite Forall_forall in IH.
        destruct (IH _ Ci) as [_ IHb]. exact (IHb n w Cd Gb). }
      apply good_map. split.
      * unfold clen in *. rewrite map_length. apply Forall2_len in F. lia.
      * intros x y I. apply in_map_iff in I as ([k w] & Q & I). injection Q as <- <-. apply (B2 _ I).
Qed.

Section Slack.
Context (e : nat).
Definition reser {A} (d : D A) (s : A -> cval) (k : nat) : Prop :=
  forall n v a, d v = Ok a -> good n v -> k <= n -> good (n + e) (s a).

Lemma r_id : reser de_id ser_id 0.
Proof. intros n v a _ _ _. apply good_hex. rewrite id_to_bytes_length. lia. Qed.
Lemma r_u8 : reser de_u8 ser_u8 0.
Proof. intros n v a _ _ _. apply good_uint. Qed.
Lemma r_u k : reser (de_u k) (@ser_u k) 0.
Proof. intros n v a _ _ _. apply good_uint. Qed.
Lemma r_bool : reser de_bool CBool 0.
Proof. intros n v a _ _ _. apply good_bool. Qed.
Lemma r_text : reser de_text CText 0.
Proof. intros n v a H G _. destruct v; try discriminate. injection H as <-. apply (good_mono n); [lia|exact G]. Qed.
Lemma r_hex : reser de_hex hex_text 0.
Proof.
  intros n v a H G _. destruct v; try discriminate. unfold de_hex in H.
  destruct (hex_decode (sv s)) eqn:E; [|discriminate]. injection H as <-. apply (good_mono n); [lia|]. eapply good_hex_decoded; eauto.
Qed.
Lemma r_sub P : reser (de_sub P) (@ser_sub P) 0.
Proof.
  intros n v a H G _. unfold de_sub in H. destruct (sub_of P v) eqn:E; [|discriminate]. injection H as <-.
  apply sub_of_some in E. unfold ser_sub. rewrite E. apply (good_mono n); [lia|exact G].
Qed.
Lemma r_uuid : reser de_uuid (fun u => CBytes (arr_l u)) 0.
Proof. intros n v a _ _ _. apply good_bytes. unfold clen. rewrite arr_len. apply small. lia. Qed.
Lemma r_ct : reser de_ct (fun c => CText (ct_name c)) 0.
Proof. intros n v a _ _ _. apply good_lit. destruct a; vm_compute; reflexivity. Qed.

Lemma r_list {A} (d : D A) s k : reser d s k -> reser (de_list d) (ser_list s) (S k).
Proof.
  intros R n v a H G K. destruct v; try discriminate. destruct n as [|n]; [lia|]. unfold de_list in H.
  apply map_res_ok in H. apply good_arr in G as [G1 G2]. change (S n + e) with (S (n + e)). apply good_arr. split.
  - unfold clen in *. rewrite map_length. rewrite <- (Forall2_len _ _ _ H). exact G1.
  - intros x I. apply in_map_iff in I as (y & <- & I). destruct (Forall2_in_r _ _ _ _ H I) as (z & Z & E).
    apply (R n z y E); [auto|lia].
Qed.
Lemma r_opt {A} (d : D A) s k : reser d s k -> reser (de_opt d) (ser_opt s) k.
Proof.
  intros R n v a H G K. unfold de_opt in H.
  destruct v; try (injection H as <-; apply good_null).
  all: apply bind_ok in H as (x & H & X); injection X as <-; apply (R n _ x H G K).
Qed.
Lemma r_imap {K V} (eqb : K -> K -> bool) (dk : D K) (dv : D V) sk s k1 k2 :
  reser dk sk k1 -> reser dv s k2 ->
  reser (de_imap eqb dk dv) (fun m => CMap (map (fun '(k, v) => (sk k, s v)) (sv m))) (S (Nat.max k1 k2)).
Proof.
  intros R1 R2 n v a H G L. destruct v; try discriminate. destruct n as [|n]; [lia|]. unfold de_imap in H.
  apply bind_ok in H as (ps & H & X). apply map_res_ok in H. apply good_map in G as [G1 G2].
  destruct (sub_of (nodup_keys eqb) (ibuild eqb ps)) as [m|] eqn:E; [|discriminate]. injection X as <-.
  apply sub_of_some in E. rewrite E.
  destruct (ibuild_all eqb ps (fun k => good (n + e) (sk k)) (fun v => good (n + e) (s v))) as [B1 B2].
  { intros [k v] I. destruct (Forall2_in_r _ _ _ _ H I) as ([a b] & Z & F).
    apply bind_ok in F as (k' & Fk & F). apply bind_ok in F as (v' & Fv & F). injection F as <- <-.
    destruct (G2 a b Z). cbn [fst snd]. split; [apply (R1 n a)|apply (R2 n b)]; auto; lia. }
  change (S n + e) with (S (n + e)). apply good_map. split.
  - unfold clen in *. rewrite map_length. apply Forall2_len in H. lia.
  - intros x y I. apply in_map_iff in I as ([k v] & F & I). injection F as <- <-. apply (B2 _ I).
Qed.
Lemma r_imap_seq {K V} (eqb : K -> K -> bool) (dk : D K) (dv : D V) sk s k1 k2 :
  reser dk sk k1 -> reser dv s k2 ->
  reser (de_imap_seq eqb dk dv) (fun m => CArr (map (fun '(k, v) => CArr [sk k; s v]) (sv m))) (S (S (Nat.max k1 k2))).
Proof.
  intros R1 R2 n v a H G L. destruct v; try discriminate. destruct n as [|[|n]]; [lia..|]. unfold de_imap_seq in H.
  apply bind_ok in H as (ps & H & X). apply map_res_ok in H. apply good_arr in G as [G1 G2].
  destruct (sub_of (nodup_keys eqb) (ibuild eqb ps)) as [m|] eqn:E; [|discriminate]. injection X as <-.
  apply sub_of_some in E. rewrite E.
  destruct (ibuild_all eqb ps (fun k => good (n + e) (sk k)) (fun v => good (n + e) (s v))) as [B1 B2].
  { intros [k v] I. destruct (Forall2_in_r _ _ _ _ H I) as (z & Z & F).
    destruct z as [| | | |[|a [|b [|]]]| | | | |]; try discriminate.
    apply bind_ok in F as (k' & Fk & F). apply bind_ok in F as (v' & Fv & F). injection F as <- <-.
    apply G2, good_arr in Z as [_ Z]. cbn [fst snd].
    split; [apply (R1 n a)|apply (R2 n b)]; auto with datatypes; try lia; apply Z; cbn; auto. }
  change (S (S n) + e) with (S (S (n + e))). apply good_arr. split.
  - unfold clen in *. rewrite map_length. apply Forall2_len in H. lia.
  - intros y I. apply in_map_iff in I as ([k v] & <- & I). apply good_arr. split; [apply small; cbn; lia|].
    destruct (B2 _ I). intros x [<-|[<-|[]]]; assumption.
Qed.
Lemma r_value : 1 <= e -> reser de_value ser_value 0.
Proof.
  intros He n v a H G _. unfold de_value in H. destruct (de_jval v) as [j|] eqn:E; [|discriminate].
  destruct (sub_of jok j) as [x|] eqn:S; [|discriminate]. injection H as <-. apply sub_of_some in S. unfold ser_value. rewrite S.
  apply (good_mono (n + 1)); [lia|]. eapply reser_value; eauto.
Qed.
Lemma r_props : 1 <= e -> reser de_props ser_props 1.
Proof. intros He. apply (r_imap rs_eqb de_text _ CText ser_value 0 0); [apply r_text|apply r_value, He]. Qed.
Lemma r_raw : reser de_raw CBytes 0.
Proof.
  intros n v a H G _. destruct v; try discriminate; cbn [de_raw] in H.
  - injection H as <-. apply (good_mono n); [lia|exact G].
  - destruct (hex_decode (sv s)) eqn:E; [|discriminate]. injection H as <-.
    apply (good_hex_decoded n _ _ E), good_text in G. apply good_bytes. cbn [sv hex_text] in G.
    unfold clen in *. rewrite hex_encode_length in G. lia.
Qed.

(** structs *)
Definition fields (n : nat) (m : list (cval * cval)) : Prop := forall a b, In (a, b) m -> good n a /\ good n b.
Lemma lookup_in k m v : In v (lookup k m) -> exists a, In (a, v) m.
Proof.
  unfold lookup. intros H. apply in_map_iff in H as ([a b] & <- & H). apply filter_In in H as [H _]. eauto.
Qed.
Lemma req_good {A} (d : D A) s k key m n a :
  reser d s k -> fields n m -> k <= n -> req d key m = Ok a -> good (n + e) (s a).
Proof.
  intros R F L H. unfold req in H. destruct (lookup key m) as [|v [|]] eqn:E; try discriminate.
  destruct (lookup_in key m v) as (b & I); [rewrite E; left; reflexivity|]. apply (R n v a H); [apply (F _ _ I)|exact L].
Qed.
Lemma dflt_good {A} (d : D A) s k key m n a0 a :
  reser d s k -> good (n + e) (s a0) -> fields n m -> k <= n -> dflt d a0 key m = Ok a -> good (n + e) (s a).
Proof.
  intros R G F L H. unfold dflt in H. destruct (lookup key m) as [|v [|]] eqn:E; [injection H as <-; exact G| |discriminate].
  destruct (lookup_in key m v) as (b & I); [rewrite E; left; reflexivity|]. apply (R n v a H); [apply (F _ _ I)|exact L].
Qed.
Lemma good_fields n l : (clen l < pow256 8)%N -> Forall (fun p => good n (fst p) /\ good n (snd p)) l -> good (S n) (CMap l).
Proof.
  intros L F. apply good_map. split; [exact L|]. intros a b I. rewrite Forall_forall in F. apply (F _ I).
Qed.
Lemma r_struct {A} (f : list (cval * cval) -> res unit A) (s : A -> cval) k :
  (forall n m a, f m = Ok a -> fields n m -> k <= n -> good (S (n + e)) (s a)) -> reser (de_struct f) s (S k).
Proof.
  intros H n v a E G L. destruct v; try discriminate. destruct n as [|n]; [lia|]. apply good_map in G as [_ G].
  apply (H n l a E); [exact G|lia].
Qed.
Lemma skip_good n k p : good n (CText k) -> good n (ser_props p) ->
  Forall (fun q => good n (fst q) /\ good n (snd q)) (skip_empty k p).
Proof. intros A B. unfold skip_empty. destruct (sv p); constructor; auto. Qed.
Lemma skip_len k p : length (skip_empty k p) <= 1.
Proof. unfold skip_empty. destruct (sv p); cbn; lia. Qed.

Ltac binds H := repeat match type of H with
  | bind _ _ = Ok _ => let x := fresh "x" in let E := fresh "E" in apply bind_ok in H as (x & E & H)
  end; injection H as <-.
Ltac field R := first
  [ eapply (req_good _ _ _ _ _ _ _ R); [eassumption| |eassumption]; lia
  | eapply (dflt_good _ _ _ _ _ _ _ _ R); [|eassumption| |eassumption]; [|lia] ].
Ltac lits := apply good_lit; vm_compute; reflexivity.

(** one struct: all fields, in the order of the fields *)
Ltac fin := repeat first [apply Forall_nil | apply Forall_cons; [split; cbn [fst snd]; [lits|]|]].
Ltac start := apply r_struct; intros n m a H F L; binds H.

Lemma r_candidate : 1 <= e -> reser de_candidate ser_candidate 2.
Proof.
  intros He. start. apply good_fields; cbn [cand_id cand_props].
  - unfold clen. rewrite app_length. pose proof (skip_len (lit "properties") x0). apply small. cbn [length]. lia.
  - apply Forall_app. split; [fin; field r_text|]. apply skip_good; [lits|]. field (r_props He).
    split; [reflexivity|cbn; lia].
Qed.
Lemma r_contest : 1 <= e -> reser de_contest ser_contest 4.
Proof.
  intros He. start. apply good_fields; cbn [cont_id cont_index cont_type cont_winners cont_write_in cont_candidates cont_props].
  - unfold clen. rewrite app_length. pose proof (skip_len (lit "properties") x5). apply small. cbn [length]. lia.
  - apply Forall_app. split; [fin|apply skip_good; [lits|field (r_props He); split; [reflexivity|cbn; lia]]].
    + field r_text. + field (r_u 4). + field r_ct. + field (r_u 4). + field r_bool.
    + field (r_list _ _ _ (r_candidate He)).
Qed.
Lemma r_ballot : 1 <= e -> reser de_ballot ser_ballot 3.
Proof.
  intros He. start. apply good_fields; cbn [bal_id bal_contests bal_props].
  - unfold clen. rewrite app_length. pose proof (skip_len (lit "properties") x1). apply small. cbn [length]. lia.
  - apply Forall_app. split; [fin|apply skip_good; [lits|field (r_props He); split; [reflexivity|cbn; lia]]].
    + field r_text. + field (r_list _ _ _ (r_u 4)).
Qed.
Lemma r_selection : reser de_selection ser_selection 1.
Proof.
  start. apply good_fields; [apply small; cbn; lia|]. cbn [sel_write_in sel_score sel_text]. fin.
  - apply good_bool. - apply good_uint. - field r_text.
Qed.
Lemma r_mixconfig : reser de_mixconfig ser_mixconfig 1.
Proof.
  start. apply good_fields; [apply small; cbn; lia|]. cbn [mc_timeout mc_batch]. fin.
  - apply good_uint. - field (r_opt _ _ _ (r_u 2)). apply good_null.
Qed.

Section R.
  Context {C : Crypto}.

  Lemma good_arr_l k n (a : arr k) : k <= 500 -> good n (CBytes (arr_l a)).
  Proof. intros K. apply good_bytes. unfold clen. rewrite arr_len. apply small. lia. Qed.
  Lemma r_pk : reser de_pk ser_pk 0.
  Proof. intros n v a _ _ _. apply good_arr_l. lia. Qed.
  Lemma r_sig : reser de_sig ser_sig 0.
  Proof. intros n v a _ _ _. apply good_arr_l. lia. Qed.
  Lemma r_key : reser de_key (fun k => CBytes (sv k)) 0.
  Proof.
    intros n v a H G L. unfold de_key in H. apply bind_ok in H as (b & H & X).
    destruct (sub_of rsa_pk_ok b) eqn:S1; [|discriminate]. injection X as <-. apply sub_of_some in S1. rewrite S1.
    exact (r_raw n v b H G L).
  Qed.
  Lemma r_trustee : reser de_trustee ser_trustee 1.
  Proof.
    start. apply good_fields; [apply small; cbn; lia|]. cbn [tr_public_key tr_index]. fin.
    - field r_pk. - apply good_uint.
  Qed.
  Lemma r_authenticator : reser de_authenticator ser_authenticator 2.
  Proof.
    start. apply good_fields; [apply small; cbn; lia|]. cbn [au_id au_keys]. fin.
    - field r_uuid.
    - field (r_imap rs_eqb de_text de_key CText (fun k => CBytes (sv k)) 0 0 r_text r_key).
  Qed.
  Lemma r_authentication : reser de_authentication ser_authentication 1.
  Proof.
    start. apply good_fields; [apply small; cbn; lia|]. cbn [an_authenticator an_signature]. fin.
    - field r_uuid. - field r_hex.
  Qed.
  Lemma r_encvote : reser de_encvote ser_encvote 2.
  Proof.
    start. apply good_fields; [apply small; cbn; lia|]. cbn [ev_contest ev_selections]. fin.
    - apply good_uint. - field (r_list _ _ _ (r_sub ct_ok)).
  Qed.
  Lemma r_shares : reser (de_imap_seq Byte.eqb de_u8 de_raw) ser_shares 2.
  Proof. exact (r_imap_seq Byte.eqb de_u8 de_raw ser_u8 CBytes 0 0 r_u8 r_raw). Qed.

  Lemma r_election : 1 <= e -> reser de_election ser_election 6.
  Proof.
    intros He. start. apply good_fields; [apply small; cbn; lia|].
    cbn [el_id el_authority el_trustees el_threshold el_authenticators el_auth_threshold el_mix_config el_ballots el_contests el_props].
    fin.
    - field r_id. - field r_pk. - field (r_list _ _ _ r_trustee). - apply good_uint.
    - field (r_list _ _ _ r_authenticator). - apply good_uint.
    - field (r_opt _ _ _ r_mixconfig). apply good_null.
    - field (r_list _ _ _ (r_ballot He)). - field (r_list _ _ _ (r_contest He)).
    - field (r_props He). split; [reflexivity|cbn; lia].
  Qed.
  Lemma r_commitment : reser de_commitment ser_commitment 1.
  Proof.
    start. apply good_fields; [apply small; cbn; lia|].
    cbn [kc_id kc_election kc_trustee kc_public kc_x25519 kc_commitment]. fin.
    - field r_id. - field r_id. - apply good_uint. - field r_pk. - apply good_arr_l. lia.
    - field (r_sub commit_ok).
  Qed.
  Lemma r_share : reser de_share ser_share 3.
  Proof.
    start. apply good_fields; [apply small; cbn; lia|].
    cbn [ks_id ks_election ks_trustee ks_public ks_shares]. fin.
    - field r_id. - field r_id. - apply good_uint. - field r_pk. - field r_shares.
  Qed.
  Lemma r_pubkey : reser de_pubkey ser_pubkey 1.
  Proof.
    start. apply good_fields; [apply small; cbn; lia|].
    cbn [kp_id kp_election kp_trustee kp_public kp_key kp_proof]. fin.
    - field r_id. - field r_id. - apply good_uint. - field r_pk. - field (r_sub eg_pk_ok). - field (r_sub pkproof_ok).
  Qed.
  Lemma r_enckey : reser de_enckey ser_enckey 1.
  Proof.
    start. apply good_fields; [apply small; cbn; lia|]. cbn [ek_id ek_election ek_authority ek_key]. fin.
    - field r_id. - field r_id. - field r_pk. - field (r_sub eg_pk_ok).
  Qed.
  Lemma r_vote : reser de_vote ser_vote 4.
  Proof.
    start. apply good_fields; [apply small; cbn; lia|].
    cbn [vt_id vt_election vt_ballot vt_votes vt_key vt_authn]. fin.
    - field r_id. - field r_id. - field r_text. - field (r_list _ _ _ r_encvote). - field r_pk.
    - field (r_list _ _ _ r_authentication).
  Qed.
  Lemma r_votingend : reser de_votingend ser_votingend 1.
  Proof.
    start. apply good_fields; [apply small; cbn; lia|]. cbn [ve_id ve_election ve_authority]. fin.
    - field r_id. - field r_id. - field r_pk.
  Qed.
  Lemma r_mix : reser de_mix ser_mix 3.
  Proof.
    start. apply good_fields; [apply small; cbn; lia|].
    cbn [mx_id mx_election mx_prev mx_trustee mx_public mx_index mx_contest mx_batch mx_votes mx_out mx_proof]. fin.
    - field r_id. - field r_id. - field (r_opt _ _ _ r_id). apply good_null. - apply good_uint. - field r_pk.
    - apply good_uint. - apply good_uint. - apply good_uint. - field (r_list _ _ _ r_id).
    - field (r_list _ _ _ (r_list _ _ _ (r_sub ct_ok))). - field (r_sub shproof_ok).
  Qed.
  Lemma r_partial : reser de_partial ser_partial 2.
  Proof.
    start. apply good_fields; [apply small; cbn; lia|].
    cbn [pd_id pd_election pd_upstream pd_index pd_contest pd_trustee pd_public pd_shares]. fin.
    - field r_id. - field r_id. - field r_id. - apply good_uint. - apply good_uint. - apply good_uint. - field r_pk.
    - field (r_list _ _ _ (r_sub dshare_ok)).
  Qed.
  Lemma r_decryption : reser de_decryption ser_decryption 3.
  Proof.
    start. apply good_fields; [apply small; cbn; lia|].
    cbn [dc_id dc_election dc_upstream dc_index dc_contest dc_trustees dc_vote]. fin.
    - field r_id. - field r_id. - field r_id. - apply good_uint. - apply good_uint.
    - field (r_list _ _ _ r_u8). - field (r_list _ _ _ r_selection).
  Qed.
  Lemma r_tx t : (t = TElection -> 1 <= e) -> reser (de_tx t) ser_tx 6.
  Proof.
    intros He n v a H G L. destruct t; apply bind_ok in H as (x & H & X); injection X as <-.
    - apply (r_election (He eq_refl) n v x H G); lia. - apply (r_commitment n v x H G); lia. - apply (r_share n v x H G); lia.
    - apply (r_pubkey n v x H G); lia. - apply (r_enckey n v x H G); lia. - apply (r_vote n v x H G); lia.
    - apply (r_votingend n v x H G); lia. - apply (r_mix n v x H G); lia. - apply (r_partial n v x H G); lia.
    - apply (r_decryption n v x H G); lia.
  Qed.
  Lemma de_tx_type t v x : de_tx t v = Ok x -> tx_type x = t.
  Proof. intros H. destruct t; apply bind_ok in H as (y & _ & H); injection H as <-; reflexivity. Qed.
  Lemma r_stx n v a : de_stx v = Ok a -> good n v -> 7 <= n -> (s_type a = TElection -> 1 <= e) -> good (n + e) (ser_stx a).
  Proof.
    intros E G L He. destruct v as [| | | | |l| | | |]; try discriminate. destruct n as [|n]; [lia|]. apply good_map in G as [_ F].
    cbn [de_stx de_struct] in E. rename E into H. binds H. change (S n + e) with (S (n + e)). apply good_fields; [apply small; cbn; lia|]. cbn [s_tx s_sig]. fin.
    - apply good_lit. unfold s_type. cbn [s_tx]. destruct x0; vm_compute; reflexivity.
    - assert (Tg : x = TElection -> 1 <= e).
      { intros X. apply He. unfold s_type. cbn [s_tx]. unfold req in E0. destruct (lookup (lit "tx") l) as [|w []]; try discriminate.
        apply de_tx_type in E0. congruence. }
      field (r_tx x Tg).
    - field r_sig.
  Qed.

End R.
End Slack.

Section Again.
  Context {C : Crypto}.
  (** a decoded transaction re-encodes to something that decodes, unless it is an election at the limit of the depth *)
  Lemma slice_good p v : cbor_from_slice p = Some v -> good max_depth v.
  Proof.
    unfold cbor_from_slice. generalize max_depth. intros d. destruct (cdec d p) as [[w [|]]|] eqn:E; try discriminate.
    intros S. injection S as <-. exact (cdec_good _ _ _ _ E).
  Qed.
  Lemma read_both p x : stx_from_bytes p = Ok x -> exists v, cbor_from_slice p = Some v /\ de_stx v = Ok x.
  Proof. unfold stx_from_bytes. destruct (cbor_from_slice p) as [v|]; [eauto|discriminate]. Qed.
  Lemma decoded_wf p x : stx_from_bytes p = Ok x -> cwf (ser_stx x) = true.
  Proof.
    intros H. destruct (read_both _ _ H) as (v & S & D). pose proof (slice_good _ _ S) as G.
    assert (M : 7 <= max_depth) by (unfold max_depth; lia).
    exact (proj1 (r_stx 1 max_depth v x D G M (fun _ => le_n 1))).
  Qed.
  (** if it can be read again, it is the same *)
  Theorem stored_again p x y : stx_from_bytes p = Ok x -> stx_from_bytes (stx_bytes x) = Ok y -> y = norm_stx x.
  Proof.
    intros H Y. pose proof (decoded_wf _ _ H) as W. destruct (read_both _ _ Y) as (v & S & _).
    pose proof (slice_depth (ser_stx x) _ W S) as Dp. rewrite (stx_roundtrip x W Dp) in Y. congruence.
  Qed.
  Definition shallow (x : STx) (p : bytes) : Prop :=
    s_type x = TElection -> forall v, cbor_from_slice p = Some v -> cdepth v <= 126.
  Theorem decoded_good p x : stx_from_bytes p = Ok x -> shallow x p -> cwf (ser_stx x) = true /\ cdepth (ser_stx x) <= 127.
  Proof.
    intros H Sh. destruct (read_both _ _ H) as (v & S & D). pose proof (slice_good _ _ S) as G.
    assert (M : max_depth = 127) by reflexivity. rewrite M in G. clear M.
    destruct (tt_eqb (s_type x) TElection) eqn:T.
    - apply tt_eqb_eq in T. specialize (Sh T v S).
      assert (G' : good 126 v) by (split; [exact (proj1 G)|exact Sh]).
      pose proof (r_stx 1 126 v x D G' ltac:(lia) (fun _ => le_n 1)) as Z. exact Z.
    - assert (N : s_type x = TElection -> 1 <= 0) by (intros Q; rewrite Q in T; discriminate).
      pose proof (r_stx 0 127 v x D G ltac:(lia) N) as Z. exact Z.
  Qed.
  Theorem decoded_again p x : stx_from_bytes p = Ok x -> shallow x p -> stx_from_bytes (stx_bytes x) = Ok (norm_stx x).
  Proof.
    intros H Sh. destruct (decoded_good _ _ H Sh) as [A B]. unfold stx_bytes, stx_from_bytes.
    rewrite cbor_roundtrip by assumption. apply de_ser_stx.
  Qed.
End Again.
