(** * DocFacts: the two parsers accept what [SpecDoc] describes. *)
From Verif Require Import Base BaseFacts Hex HexFacts Utf8 Cbor CborFacts Value ValueFacts Json JsonFacts SpecWire WireFacts SpecDoc.
From Coq Require Strings.String.
Import String.StringSyntax.
Open Scope list_scope.

(** ** CBOR *)
Lemma big_endian_val l : forall a, big_endian a l = (a * pow256 (length l) + be_val l)%N.
Proof.
  induction l as [|b l IH]; intros a; cbn [big_endian be_val length]; [unfold pow256; cbn; lia|]. rewrite IH, pow256_S. lia.
Qed.
Lemma big_endian0 l : big_endian 0 l = be_val l.
Proof. rewrite big_endian_val. lia. Qed.
Lemma take_be_iff k l n r : take_be k l = Some (n, r) <-> exists x, l = x ++ r /\ length x = k /\ be_val x = n.
Proof.
  unfold take_be. destruct (Nat.leb_spec k (length l)); split.
  - intros K. injection K as <- <-. exists (firstn k l). rewrite firstn_skipn, firstn_length_le by lia. auto.
  - intros (x & -> & <- & <-). rewrite firstn_app, Nat.sub_diag, firstn_O, app_nil_r, firstn_all, skipn_app, Nat.sub_diag, skipn_all. reflexivity.
  - discriminate.
  - intros (x & -> & <- & _). rewrite app_length in *. lia.
Qed.
Lemma take_bytes_iff n l b r : take_bytes n l = Some (b, r) <-> l = b ++ r /\ many b = n.
Proof.
  unfold take_bytes, clen, many. destruct (N.leb_spec n (N.of_nat (length l))); split.
  - intros K. injection K as <- <-. rewrite firstn_skipn, firstn_length_le by lia. split; [reflexivity|lia].
  - intros [-> <-]. rewrite Nat2N.id. rewrite firstn_app, Nat.sub_diag, firstn_O, app_nil_r, firstn_all, skipn_app, Nat.sub_diag, skipn_all. reflexivity.
  - discriminate.
  - intros [-> <-]. rewrite app_length in *. lia.
Qed.
(** a head with its first byte *)
Definition headed (b : byte) (n : N) (x : bytes) : Prop :=
  let ai := (u8v b mod 32)%N in
  ((ai < 24)%N /\ n = ai /\ x = []) \/ exists k, ai = (24 + k)%N /\ (k < 4)%N /\ many x = (2 ^ k)%N /\ n = be_val x.
Lemma dhead_iff l m ai n r :
  dhead l = Some (m, ai, n, r) <-> exists b x, l = b :: x ++ r /\ headed b n x /\ m = (u8v b / 32)%N /\ ai = (u8v b mod 32)%N.
Proof.
  unfold dhead, headed. destruct l as [|b l]; [split; [discriminate|intros (b & x & K & _); discriminate]|].
  set (a := (u8v b mod 32)%N). set (q := (u8v b / 32)%N).
  destruct (N.ltb_spec a 24).
  - split.
    + intros K. injection K as <- <- <- <-. exists b, []. auto 6.
    + intros (b' & x & K & Hd & -> & ->). injection K as <- ->. fold a in Hd |- *. fold q. destruct Hd as [(_ & -> & ->)|(k & E & _)]; [reflexivity|lia].
  - assert (G : forall k, (if (a =? 24)%N then take_be 1 l else if (a =? 25)%N then take_be 2 l else if (a =? 26)%N then take_be 4 l
        else if (a =? 27)%N then take_be 8 l else None) = k ->
        forall n' r', k = Some (n', r') <-> exists x e, l = x ++ r' /\ a = (24 + e)%N /\ (e < 4)%N /\ many x = (2 ^ e)%N /\ n' = be_val x).
    { intros k <- n' r'. unfold many.
      destruct (N.eqb_spec a 24) as [->|]; [|destruct (N.eqb_spec a 25) as [->|]; [|destruct (N.eqb_spec a 26) as [->|]; [|destruct (N.eqb_spec a 27) as [->|]]]];
      try (rewrite take_be_iff; split;
        [intros (x & -> & L & <-)|intros (x & e & -> & Ee & _ & L & ->); exists x; split; [reflexivity|]; split; [|reflexivity]];
        [exists x|]).
      - exists 0%N. rewrite L. repeat split; reflexivity.
      - assert (e = 0%N) as -> by lia. change (2 ^ 0)%N with 1%N in L. lia.
      - exists 1%N. rewrite L. repeat split; reflexivity.
      - assert (e = 1%N) as -> by lia. change (2 ^ 1)%N with 2%N in L. lia.
      - exists 2%N. rewrite L. repeat split; reflexivity.
      - assert (e = 2%N) as -> by lia. change (2 ^ 2)%N with 4%N in L. lia.
      - exists 3%N. rewrite L. repeat split; reflexivity.
      - assert (e = 3%N) as -> by lia. change (2 ^ 3)%N with 8%N in L. lia.
      - split; [discriminate|]. intros (x & e & _ & E & B & _). lia. }
    specialize (G _ eq_refl). destruct (if (a =? 24)%N then _ else _) as [[n' r']|].
    + split.
      * intros K. injection K as <- <- <- <-. destruct (proj1 (G n' r') eq_refl) as (x & e & -> & A & B & Cc & D). exists b, x. fold a. fold q.
        split; [reflexivity|]. split; [right; exists e; auto|auto].
      * intros (b' & x & K & Hd & -> & ->). injection K as <- ->. fold a in Hd |- *. fold q. destruct Hd as [(? & _)|(k & A & B & Cc & D)]; [lia|].
        assert (X : Some (n', r') = Some (n, r)) by (apply G; exists x, k; auto). injection X as -> ->. reflexivity.
    + split; [discriminate|]. intros (b' & x & K & Hd & -> & ->). injection K as <- ->. fold a in Hd. destruct Hd as [(? & _)|(k & A & B & Cc & D)]; [lia|].
      assert (X : None = Some (n, r)) by (apply G; exists x, k; auto). discriminate.
Qed.
Lemma head_iff m n h : (m < 8)%N -> head m n h <-> exists b x, h = b :: x /\ headed b n x /\ m = (u8v b / 32)%N.
Proof.
  intros M. unfold head, headed. split; intros (b & x & -> & H); exists b, x; (split; [reflexivity|]).
  - destruct H as [(L & B & ->)|(-> & k & B & K & X)].
    + split; [left; split; [|split; [|reflexivity]]|]; try (apply N.div_unique with n; lia); rewrite B.
      * replace ((32 * m + n) mod 32)%N with n; [lia|]. apply N.mod_unique with m; lia.
      * apply N.mod_unique with m; lia.
    + split; [right; exists k|apply N.div_unique with (24 + k)%N; lia]. split; [symmetry; apply N.mod_unique with m; lia|]. rewrite big_endian0. auto.
  - pose proof (N.div_mod (u8v b) 32 ltac:(lia)) as D. destruct H as [[(L & -> & ->)|(k & A & K & X & ->)] ->].
    + left. split; [exact L|]. split; [exact D|reflexivity].
    + right. rewrite big_endian0. split; [reflexivity|]. exists k. split; [lia|auto].
Qed.
Lemma head_nonempty m n h : head m n h -> h <> [].
Proof. intros (b & l & -> & _). discriminate. Qed.

Lemma ditems_iff {A} (dec : bytes -> option (A * bytes)) (R : bytes -> A -> Prop) :
  (forall l x r, dec l = Some (x, r) <-> exists p, l = p ++ r /\ R p x) -> (forall p x, R p x -> p <> []) ->
  forall f n l xs r, length l <= f ->
  ditems dec f n l = Some (xs, r) <-> exists ps, Forall2 R ps xs /\ n = many xs /\ l = concat ps ++ r.
Proof.
  intros H NE. induction f as [|f IH]; intros n l xs r F; cbn [ditems]; unfold many in *.
  - destruct (N.eqb_spec n 0) as [->|]; split.
    + intros K. injection K as <- <-. exists []. auto.
    + intros (ps & G & Q & ->). destruct xs; [|discriminate]. inversion G. subst. reflexivity.
    + discriminate.
    + intros (ps & G & -> & ->). destruct G as [|p x ps xs X G]; [cbn [length] in *; lia|]. apply NE in X. destruct p; [congruence|]. cbn [concat app length] in F. lia.
  - destruct (N.eqb_spec n 0) as [->|]; split.
    + intros K. injection K as <- <-. exists []. auto.
    + intros (ps & G & Q & ->). destruct xs; [|discriminate]. inversion G. subst. reflexivity.
    + destruct (dec l) as [[a q]|] eqn:E; [|discriminate]. apply H in E as (p & -> & X).
      assert (L : length q <= f). { apply NE in X. rewrite app_length in F. destruct p; [congruence|]. cbn [length] in F. lia. }
      destruct (ditems dec f (n - 1) q) as [[ys q']|] eqn:D; [|discriminate]. intros K. injection K as <- <-.
      apply IH in D as (ps & G & Nn & ->); [|exact L]. exists (p :: ps). split; [constructor; assumption|]. cbn [length concat]. split; [lia|rewrite <- app_assoc; reflexivity].
    + intros (ps & G & -> & ->). destruct G as [|p x ps xs X G]; [cbn [length] in *; lia|]. cbn [concat]. rewrite <- app_assoc.
      assert (E : dec (p ++ concat ps ++ r) = Some (x, concat ps ++ r)) by (apply H; exists p; auto). rewrite E.
      assert (L : length (concat ps ++ r) <= f).
      { cbn [concat] in F. rewrite <- app_assoc, app_length in F. apply NE in X. destruct p; [congruence|]. cbn [length] in F. lia. }
      assert (D : ditems dec f (N.of_nat (length (x :: xs)) - 1) (concat ps ++ r) = Some (xs, r)).
      { apply IH; [exact L|]. exists ps. split; [exact G|]. split; [cbn [length]; lia|reflexivity]. }
      rewrite D. reflexivity.
Qed.
Lemma headed_lt b n x : headed b n x -> (n < pow256 8)%N.
Proof.
  intros [(L & -> & _)|(k & _ & K & X & ->)]; [change (pow256 8) with 18446744073709551616%N; lia|].
  eapply N.lt_le_trans; [apply be_val_lt|]. unfold pow256. apply N.pow_le_mono_r; [lia|]. unfold many in X. rewrite X.
  assert (2 ^ k <= 2 ^ 3)%N by (apply N.pow_le_mono_r; lia). change (2 ^ 3)%N with 8%N in *. lia.
Qed.
Lemma uv_of_lt k n : (n < pow256 k)%N -> uv (u_of k n) = n.
Proof. intros H. apply N.mod_small, H. Qed.
Lemma dhead_head l m ai n r : dhead l = Some (m, ai, n, r) -> exists h, l = h ++ r /\ head m n h /\ (n < pow256 8)%N.
Proof.
  intros H. apply dhead_iff in H as (b & x & -> & H & -> & _). exists (b :: x). split; [reflexivity|]. split; [|exact (headed_lt _ _ _ H)].
  apply head_iff; [apply N.div_lt_upper_bound; [lia|apply u8v_lt]|eauto].
Qed.
Lemma head_dhead m n h r : (m < 8)%N -> head m n h -> exists ai, dhead (h ++ r) = Some (m, ai, n, r).
Proof. intros M H. apply head_iff in H as (b & x & -> & H & ->); [|exact M]. eexists. apply dhead_iff. exists b, x. auto. Qed.
Definition c_entry (d : nat) (q : bytes) (kv : cval * cval) : Prop := exists q1 q2, q = q1 ++ q2 /\ item d q1 (fst kv) /\ item d q2 (snd kv).
Lemma item_nonempty d p v : item d p v -> p <> [].
Proof.
  assert (G : forall m n h x, head m n h -> h ++ x <> []) by (intros m n h x H E; apply app_eq_nil in E as [E _]; exact (head_nonempty _ _ _ H E)).
  destruct d, v; cbn [item]; intros H; try (apply head_nonempty in H; exact H); try (destruct H as (h & H & ->); eapply G, H); try (destruct H; fail);
    try (subst; discriminate); try (destruct H as (l' & _ & -> & _); discriminate);
    destruct H as (h & ps & H & _ & ->); eapply G, H.
Qed.

Section Step.
  Variable d : nat.
  Hypothesis IH : forall l v r, cdec d l = Some (v, r) <-> exists p, l = p ++ r /\ item d p v.
  Lemma dpair_iff l x r : dpair (cdec d) (cdec d) l = Some (x, r) <-> exists p, l = p ++ r /\ c_entry d p x.
  Proof.
    unfold dpair, c_entry. split.
    - destruct (cdec d l) as [[a q]|] eqn:E; [|discriminate]. apply IH in E as (p & -> & P).
      destruct (cdec d q) as [[b q']|] eqn:E; [|discriminate]. apply IH in E as (p' & -> & P'). intros K. injection K as <- <-.
      exists (p ++ p'). rewrite <- app_assoc. eauto 6.
    - intros (p & -> & q1 & q2 & -> & P1 & P2). destruct x as [a b]. cbn [fst snd] in *. rewrite <- app_assoc.
      rewrite (proj2 (IH (q1 ++ q2 ++ r) a (q2 ++ r))) by eauto. rewrite (proj2 (IH (q2 ++ r) b r)) by eauto. reflexivity.
  Qed.
  Lemma arr_iff n l xs r : ditems (cdec d) (length l) n l = Some (xs, r) <-> exists ps, Forall2 (item d) ps xs /\ n = many xs /\ l = concat ps ++ r.
  Proof. apply ditems_iff; [exact IH|apply item_nonempty|lia]. Qed.
  Lemma map_iff n l xs r : ditems (dpair (cdec d) (cdec d)) (length l) n l = Some (xs, r)
    <-> exists ps, Forall2 (c_entry d) ps xs /\ n = many xs /\ l = concat ps ++ r.
  Proof.
    apply ditems_iff; [exact dpair_iff| |lia]. intros p x (q1 & q2 & -> & H & _) E. apply app_eq_nil in E as [E _]. exact (item_nonempty _ _ _ H E).
  Qed.
End Step.
Lemma cdec_iff d : forall l v r, cdec d l = Some (v, r) <-> exists p, l = p ++ r /\ item d p v.
Proof.
  assert (G : forall d, (forall d', d = S d' -> forall l v r, cdec d' l = Some (v, r) <-> exists p, l = p ++ r /\ item d' p v) ->
    forall l v r, cdec d l = Some (v, r) <-> exists p, l = p ++ r /\ item d p v);
  [|induction d as [|d IH]; apply G; [discriminate|intros d' E; injection E as <-; exact IH]].
  clear d. intros d IH l v r. split.
  - intros H.
    assert (H' : match dhead l with None => None | Some (major, ai, n, r) =>
      if (major =? 0)%N then Some (CUint (u_of 8 n), r)
      else if (major =? 1)%N then Some (CNint (u_of 8 n), r)
      else if (major =? 2)%N then match take_bytes n r with Some (b, r') => Some (CBytes b, r') | None => None end
      else if (major =? 3)%N then
        match take_bytes n r with
        | Some (b, r') => match sub_of utf8_valid b with Some s => Some (CText s, r') | None => None end
        | None => None
        end
      else if (major =? 4)%N then
        match d with O => None | S d' => match ditems (cdec d') (length r) n r with Some (xs, r') => Some (CArr xs, r') | None => None end end
      else if (major =? 5)%N then
        match d with O => None | S d' => match ditems (dpair (cdec d') (cdec d')) (length r) n r with Some (xs, r') => Some (CMap xs, r') | None => None end end
      else if (major =? 7)%N then
        if (ai =? 20)%N then Some (CBool false, r)
        else if (ai =? 21)%N then Some (CBool true, r)
        else if (ai =? 22)%N then Some (CNull, r)
        else if (ai =? 26)%N then Some (CF32 (u_of 4 n), r)
        else if (ai =? 27)%N then Some (CF64 (u_of 8 n), r)
        else None
      else None end = Some (v, r)) by (destruct d; exact H).
    clear H. rename H' into H. destruct (dhead l) as [[[[m ai] n] q]|] eqn:E; [|discriminate].
    destruct (dhead_head _ _ _ _ _ E) as (h & -> & Hh & B).
    destruct (N.eqb_spec m 0) as [->|]. { injection H as <- <-. exists h. split; [reflexivity|]. destruct d; cbn [item]; rewrite uv_of_lt by exact B; exact Hh. }
    destruct (N.eqb_spec m 1) as [->|]. { injection H as <- <-. exists h. split; [reflexivity|]. destruct d; cbn [item]; rewrite uv_of_lt by exact B; exact Hh. }
    destruct (N.eqb_spec m 2) as [->|].
    { destruct (take_bytes n q) as [[b q']|] eqn:T; [|discriminate]. injection H as <- <-. apply take_bytes_iff in T as [-> <-].
      exists (h ++ b). split; [rewrite <- app_assoc; reflexivity|]. destruct d; cbn [item]; eauto. }
    destruct (N.eqb_spec m 3) as [->|].
    { destruct (take_bytes n q) as [[b q']|] eqn:T; [|discriminate]. destruct (sub_of utf8_valid b) as [s|] eqn:S; [|discriminate]. injection H as <- <-.
      apply sub_of_some in S. subst b. apply take_bytes_iff in T as [-> <-].
      exists (h ++ sv s). split; [rewrite <- app_assoc; reflexivity|]. destruct d; cbn [item]; eauto. }
    destruct (N.eqb_spec m 4) as [->|].
    { destruct d as [|d]; [discriminate|]. destruct (ditems (cdec d) (length q) n q) as [[xs q']|] eqn:D; [|discriminate]. injection H as <- <-.
      apply (arr_iff d (IH d eq_refl)) in D as (ps & F & -> & ->). exists (h ++ concat ps). split; [rewrite <- app_assoc; reflexivity|]. cbn [item]. eauto. }
    destruct (N.eqb_spec m 5) as [->|].
    { destruct d as [|d]; [discriminate|]. destruct (ditems (dpair (cdec d) (cdec d)) (length q) n q) as [[xs q']|] eqn:D; [|discriminate]. injection H as <- <-.
      apply (map_iff d (IH d eq_refl)) in D as (ps & F & -> & ->). exists (h ++ concat ps). split; [rewrite <- app_assoc; reflexivity|]. cbn [item]. eauto. }
    destruct (N.eqb_spec m 7) as [->|]; [|discriminate].
    apply dhead_iff in E as (b & x & E & Hd & M & A). pose proof (N.div_mod (u8v b) 32 ltac:(lia)) as DM. rewrite <- M, <- A in DM.
    unfold headed in Hd. rewrite <- A in Hd. change (b :: x ++ q) with ((b :: x) ++ q) in E. apply app_inv_tail in E. subst h.
    assert (V : forall c, u8v b = u8v c -> b = c) by apply u8v_inj.
    destruct (N.eqb_spec ai 20) as [->|].
    { injection H as <- <-. destruct Hd as [(_ & _ & ->)|(k & K & _)]; [|lia]. exists [b]. split; [reflexivity|]. rewrite (V xf4) by exact DM. destruct d; reflexivity. }
    destruct (N.eqb_spec ai 21) as [->|].
    { injection H as <- <-. destruct Hd as [(_ & _ & ->)|(k & K & _)]; [|lia]. exists [b]. split; [reflexivity|]. rewrite (V xf5) by exact DM. destruct d; reflexivity. }
    destruct (N.eqb_spec ai 22) as [->|].
    { injection H as <- <-. destruct Hd as [(_ & _ & ->)|(k & K & _)]; [|lia]. exists [b]. split; [reflexivity|]. rewrite (V xf6) by exact DM. destruct d; reflexivity. }
    destruct (N.eqb_spec ai 26) as [->|].
    { injection H as <- <-. destruct Hd as [(K & _)|(k & K & _ & X & ->)]; [lia|]. assert (k = 2%N) as -> by lia. exists (b :: x). split; [reflexivity|].
      assert (L : length x = 4) by (unfold many in X; change (2 ^ 2)%N with 4%N in X; lia).
      assert (be_val x < pow256 4)%N by (rewrite <- L; apply be_val_lt).
      rewrite (V xfa) by exact DM. destruct d; cbn [item]; exists x; rewrite big_endian0, uv_of_lt by assumption; auto. }
    destruct (N.eqb_spec ai 27) as [->|]; [|discriminate].
    injection H as <- <-. destruct Hd as [(K & _)|(k & K & _ & X & ->)]; [lia|]. assert (k = 3%N) as -> by lia. exists (b :: x). split; [reflexivity|].
    assert (L : length x = 8) by (unfold many in X; change (2 ^ 3)%N with 8%N in X; lia).
    assert (be_val x < pow256 8)%N by (rewrite <- L; apply be_val_lt).
    rewrite (V xfb) by exact DM. destruct d; cbn [item]; exists x; rewrite big_endian0, uv_of_lt by assumption; auto.
  - intros (p & -> & H).
    assert (U : forall m n h x, (m < 8)%N -> head m n h -> exists ai, dhead ((h ++ x) ++ r) = Some (m, ai, n, x ++ r)).
    { intros m n h x M K. rewrite <- app_assoc. apply head_dhead; assumption. }
    assert (W : forall n : u64, u_of 8 (uv n) = n) by (intros n; apply u_ext, uv_of_lt, uv_lt).
    assert (W4 : forall n : u32, u_of 4 (uv n) = n) by (intros n; apply u_ext, uv_of_lt, uv_lt).
    assert (Q : forall s : rstring, sub_of utf8_valid (sv s) = Some s) by (intros; apply sub_of_sv).
    destruct v as [n|n|b|s|xs|xs|b| |n|n].
    + assert (K : head 0 (uv n) p) by (destruct d; exact H). destruct (head_dhead 0 _ _ r eq_refl K) as (ai & E).
      destruct d; cbn [cdec]; rewrite E; cbn [N.eqb]; rewrite W; reflexivity.
    + assert (K : head 1 (uv n) p) by (destruct d; exact H). destruct (head_dhead 1 _ _ r eq_refl K) as (ai & E).
      destruct d; cbn [cdec]; rewrite E; cbn [N.eqb Pos.eqb]; rewrite W; reflexivity.
    + assert (K : exists h, head 2 (many b) h /\ p = h ++ b) by (destruct d; exact H). destruct K as (h & K & ->).
      destruct (U 2%N _ h b eq_refl K) as (ai & E). assert (T : take_bytes (many b) (b ++ r) = Some (b, r)) by (apply take_bytes_iff; auto).
      destruct d; cbn [cdec]; rewrite E; cbn [N.eqb Pos.eqb]; rewrite T; reflexivity.
    + assert (K : exists h, head 3 (many (sv s)) h /\ p = h ++ sv s) by (destruct d; exact H). destruct K as (h & K & ->).
      destruct (U 3%N _ h (sv s) eq_refl K) as (ai & E). assert (T : take_bytes (many (sv s)) (sv s ++ r) = Some (sv s, r)) by (apply take_bytes_iff; auto).
      destruct d; cbn [cdec]; rewrite E; cbn [N.eqb Pos.eqb]; rewrite T, Q; reflexivity.
    + destruct d as [|d]; [destruct H|]. cbn [item] in H. destruct H as (h & ps & K & F & ->).
      destruct (U 4%N _ h (concat ps) eq_refl K) as (ai & E). cbn [cdec]. rewrite E. cbn [N.eqb Pos.eqb].
      rewrite (proj2 (arr_iff d (IH d eq_refl) (many xs) (concat ps ++ r) xs r)) by eauto. reflexivity.
    + destruct d as [|d]; [destruct H|]. cbn [item] in H. destruct H as (h & ps & K & F & ->).
      destruct (U 5%N _ h (concat ps) eq_refl K) as (ai & E). cbn [cdec]. rewrite E. cbn [N.eqb Pos.eqb].
      rewrite (proj2 (map_iff d (IH d eq_refl) (many xs) (concat ps ++ r) xs r)) by eauto. reflexivity.
    + assert (K : p = [if b then xf5 else xf4]) by (destruct d; exact H). subst p. destruct b, d; reflexivity.
    + assert (K : p = [xf6]) by (destruct d; exact H). subst p. destruct d; reflexivity.
    + assert (K : exists l, length l = 4 /\ p = xfa :: l /\ big_endian 0 l = uv n) by (destruct d; exact H). destruct K as (x & L & -> & V).
      assert (E : dhead ((xfa :: x) ++ r) = Some (7%N, 26%N, uv n, r)).
      { apply dhead_iff. exists xfa, x. split; [reflexivity|]. split; [|auto]. right. exists 2%N. rewrite <- V, big_endian0. unfold many. rewrite L.
        repeat split; reflexivity. }
      destruct d; cbn [cdec]; rewrite E; cbn [N.eqb Pos.eqb]; rewrite W4; reflexivity.
    + assert (K : exists l, length l = 8 /\ p = xfb :: l /\ big_endian 0 l = uv n) by (destruct d; exact H). destruct K as (x & L & -> & V).
      assert (E : dhead ((xfb :: x) ++ r) = Some (7%N, 27%N, uv n, r)).
      { apply dhead_iff. exists xfb, x. split; [reflexivity|]. split; [|auto]. right. exists 3%N. rewrite <- V, big_endian0. unfold many. rewrite L.
        repeat split; reflexivity. }
      destruct d; cbn [cdec]; rewrite E; cbn [N.eqb Pos.eqb]; rewrite W; reflexivity.
Qed.
Theorem cbor_iff p v : cbor_from_slice p = Some v <-> item 127 p v.
Proof.
  unfold cbor_from_slice. pose proof (cdec_iff max_depth p v []) as E. change max_depth with 127 in E at 2. split.
  - destruct (cdec max_depth p) as [[u [|]]|]; try discriminate. intros K. injection K as ->. destruct (proj1 E eq_refl) as (q & -> & H).
    rewrite app_nil_r. exact H.
  - intros H. rewrite (proj2 E); [reflexivity|]. exists p. rewrite app_nil_r. auto.
Qed.

(** ** JSON *)
Lemma space_iff l : space l <-> forallb is_ws l = true.
Proof.
  unfold space. rewrite forallb_forall. split; intros H c I; specialize (H c I).
  - cbn [In] in H. destruct H as [<-|[<-|[<-|[<-|[]]]]]; reflexivity.
  - unfold is_ws in H. rewrite !orb_true_iff, !beq in H. cbn [In]. destruct H as [[[->| ->]| ->]| ->]; auto.
Qed.
Lemma skip_split l : exists a, l = a ++ skip_ws l /\ space a /\ forall b r, skip_ws l = b :: r -> is_ws b = false.
Proof.
  induction l as [|b l (a & E & S & N)]; [exists []; split; [reflexivity|]; split; [intros c []|discriminate]|]. cbn [skip_ws]. destruct (is_ws b) eqn:B.
  - exists (b :: a). split; [cbn [app]; f_equal; exact E|]. split; [|exact N]. apply space_iff. cbn [forallb]. rewrite B. apply space_iff, S.
  - exists []. split; [reflexivity|]. split; [intros c []|]. intros c r K. injection K as -> _. exact B.
Qed.
Lemma space_nil : space [].
Proof. intros c []. Qed.
#[local] Hint Resolve space_nil : core.
Lemma space_stops b r : space b -> stops r = true -> stops (b ++ r) = true.
Proof.
  intros B R. destruct b as [|c b]; [exact R|]. specialize (B c (or_introl eq_refl)). cbn [In] in B. destruct B as [<-|[<-|[<-|[<-|[]]]]]; reflexivity.
Qed.

Lemma utf8_form_iff n u : utf8_form n u <-> (n < 1114112)%N /\ u = utf8_enc n.
Proof.
  assert (V : forall a x, (x < 256)%N -> u8v a = x <-> a = u8_of x).
  { intros a x X. split; [intros <-; symmetry; apply u8_of_u8v|intros ->; rewrite u8v_u8_of; apply N.mod_small, X]. }
  assert (DM : forall a q, (q <> 0)%N -> a = (q * (a / q) + a mod q)%N /\ (a mod q < q)%N) by (intros a q Q; split; [apply N.div_mod, Q|apply N.mod_lt, Q]).
  unfold utf8_enc, utf8_form. destruct (N.ltb_spec n 128).
  { split.
    - intros [(_ & a & -> & A)|[(? & _)|[(? & _)|(? & _)]]]; try lia. split; [lia|]. apply V in A; [|lia]. congruence.
    - intros [_ ->]. left. split; [assumption|]. exists (u8_of n). split; [reflexivity|]. apply V; [lia|reflexivity]. }
  destruct (N.ltb_spec n 2048).
  { split.
    - intros [(? & _)|[(_ & a & b & x & y & -> & A & B & Y & E)|[(? & _)|(? & _)]]]; try lia. split; [lia|].
      assert (x = n / 64)%N by (apply N.div_unique with y; lia). assert (y = n mod 64)%N by (apply N.mod_unique with x; lia).
      apply V in A; [|lia]. apply V in B; [|lia]. congruence.
    - intros [_ ->]. right. left. split; [lia|]. destruct (DM n 64%N ltac:(lia)) as [D1 D2].
      exists (u8_of (192 + n / 64)), (u8_of (128 + n mod 64)), (n / 64)%N, (n mod 64)%N.
      split; [reflexivity|]. split; [apply V; [lia|reflexivity]|]. split; [apply V; [lia|reflexivity]|]. split; lia. }
  destruct (N.ltb_spec n 65536).
  { split.
    - intros [(? & _)|[(? & _)|[(_ & a & b & c & x & y & z & -> & A & B & Cc & Y & Z & E)|(? & _)]]]; try lia. split; [lia|].
      assert (x = n / 4096)%N by (apply N.div_unique with (64 * y + z)%N; lia).
      assert (Q : (64 * x + y = n / 64)%N) by (apply N.div_unique with z; lia).
      assert (y = (n / 64) mod 64)%N by (rewrite <- Q; apply N.mod_unique with x; lia).
      assert (z = n mod 64)%N by (apply N.mod_unique with (64 * x + y)%N; lia).
      apply V in A; [|lia]. apply V in B; [|lia]. apply V in Cc; [|lia]. congruence.
    - intros [_ ->]. right. right. left. split; [lia|]. destruct (DM n 64%N ltac:(lia)) as [D1 D2]. destruct (DM (n / 64)%N 64%N ltac:(lia)) as [D3 D4].
      rewrite N.div_div in D3 by lia. change (64 * 64)%N with 4096%N in D3.
      exists (u8_of (224 + n / 4096)), (u8_of (128 + (n / 64) mod 64)), (u8_of (128 + n mod 64)), (n / 4096)%N, ((n / 64) mod 64)%N, (n mod 64)%N.
      split; [reflexivity|]. split; [apply V; [lia|reflexivity]|]. split; [apply V; [lia|reflexivity]|]. split; [apply V; [lia|reflexivity]|].
      split; [lia|]. split; lia. }
  split.
  - intros [(? & _)|[(? & _)|[(? & _)|(? & a & b & c & d & x & y & z & w & -> & A & B & Cc & Dd & Y & Z & W & E)]]]; try lia. split; [lia|].
    assert (x = n / 262144)%N by (apply N.div_unique with (4096 * y + 64 * z + w)%N; lia).
    assert (Q : (64 * x + y = n / 4096)%N) by (apply N.div_unique with (64 * z + w)%N; lia).
    assert (P : (4096 * x + 64 * y + z = n / 64)%N) by (apply N.div_unique with w; lia).
    assert (y = (n / 4096) mod 64)%N by (rewrite <- Q; apply N.mod_unique with x; lia).
    assert (z = (n / 64) mod 64)%N by (rewrite <- P; apply N.mod_unique with (64 * x + y)%N; lia).
    assert (w = n mod 64)%N by (apply N.mod_unique with (4096 * x + 64 * y + z)%N; lia).
    apply V in A; [|lia]. apply V in B; [|lia]. apply V in Cc; [|lia]. apply V in Dd; [|lia]. congruence.
  - intros [? ->]. right. right. right. split; [lia|]. destruct (DM n 64%N ltac:(lia)) as [D1 D2]. destruct (DM (n / 64)%N 64%N ltac:(lia)) as [D3 D4].
    rewrite N.div_div in D3 by lia. change (64 * 64)%N with 4096%N in D3. destruct (DM (n / 4096)%N 64%N ltac:(lia)) as [D5 D6].
    rewrite N.div_div in D5 by lia. change (4096 * 64)%N with 262144%N in D5.
    exists (u8_of (240 + n / 262144)), (u8_of (128 + (n / 4096) mod 64)), (u8_of (128 + (n / 64) mod 64)), (u8_of (128 + n mod 64)),
      (n / 262144)%N, ((n / 4096) mod 64)%N, ((n / 64) mod 64)%N, (n mod 64)%N.
    split; [reflexivity|]. split; [apply V; [lia|reflexivity]|]. split; [apply V; [lia|reflexivity]|]. split; [apply V; [lia|reflexivity]|].
    split; [apply V; [lia|reflexivity]|]. split; [lia|]. split; [lia|]. split; lia.
Qed.
Lemma code_iff q n : code q n <-> exists a b c d, q = [a; b; c; d] /\ hex4 a b c d = Some n.
Proof.
  unfold code, hex4. split.
  - intros (h & l & S & ->). inversion S as [|c d x y b0 s l0 X Y B S2]; subst. inversion S2 as [|c' d' x' y' b' s' l' X' Y' B' S3]; subst. inversion S3; subst.
    exists c, d, c', d'. split; [reflexivity|]. apply spells_decode in S. rewrite S. reflexivity.
  - intros (a & b & c & d & -> & H). destruct (hex_decode [a; b; c; d]) as [[|h [|l [|]]]|] eqn:E; try discriminate. injection H as <-.
    exists h, l. split; [apply spells_decode, E|reflexivity].
Qed.
Lemma code_lt q n : code q n -> (n < 65536)%N.
Proof. intros (h & l & _ & ->). pose proof (u8v_lt h). pose proof (u8v_lt l). lia. Qed.
Lemma hi_iff n : surr_hi n = true <-> high n.
Proof. unfold surr_hi, high. rewrite andb_true_iff, !N.leb_le. lia. Qed.
Lemma lo_iff n : surr_lo n = true <-> low n.
Proof. unfold surr_lo, low. rewrite andb_true_iff, !N.leb_le. lia. Qed.
Lemma short_iff e b : In (e, b) short <-> unesc e = Some b.
Proof.
  unfold short, unesc. cbn [In]. split.
  - intros H. repeat destruct H as [H|H]; try (injection H as <- <-; reflexivity). destruct H.
  - repeat match goal with |- context [Byte.eqb e ?c] => let E := fresh "E" in destruct (Byte.eqb e c) eqn:E;
      [apply beq in E; subst e; intros K; injection K as <-; auto 10|] end. discriminate.
Qed.
Lemma chars_jchars s t : chars s t -> forall r, jchars (s ++ x22 :: r) = Some (t, r).
Proof.
  induction 1 as [|b s t L Q B H IH|e b s t I H IH|q n u s t Q NH NL U H IH|q n q' m u s t Q Hn Q' Lm U H IH]; intros r.
  - reflexivity.
  - cbn [app jchars]. replace (Byte.eqb b x22) with false by (symmetry; apply not_true_iff_false; rewrite beq; exact Q).
    replace (Byte.eqb b x5c) with false by (symmetry; apply not_true_iff_false; rewrite beq; exact B).
    replace (in_range 0 31 b) with false by (symmetry; unfold in_range; apply andb_false_iff; right; apply N.leb_gt; lia). rewrite IH. reflexivity.
  - cbn [app]. apply short_iff in I. rewrite (jchars_one e b); [rewrite IH; reflexivity|exact I|].
    destruct (Byte.eqb e x75) eqn:E; [|reflexivity]. apply beq in E. subst e. discriminate.
  - apply code_iff in Q as (a1 & a2 & a3 & a4 & -> & Q). cbn [app jchars].
    change (Byte.eqb x5c x22) with false. change (Byte.eqb x5c x5c) with true. change (Byte.eqb x75 x75) with true. cbv iota. rewrite Q.
    replace (surr_lo n) with false by (symmetry; apply not_true_iff_false; rewrite lo_iff; exact NL).
    replace (surr_hi n) with false by (symmetry; apply not_true_iff_false; rewrite hi_iff; exact NH).
    rewrite IH. apply utf8_form_iff in U as [_ ->]. reflexivity.
  - apply code_iff in Q as (a1 & a2 & a3 & a4 & -> & Q). apply code_iff in Q' as (b1 & b2 & b3 & b4 & -> & Q'). cbn [app jchars].
    change (Byte.eqb x5c x22) with false. change (Byte.eqb x5c x5c) with true. change (Byte.eqb x75 x75) with true. cbn [andb]. cbv iota. rewrite Q.
    replace (surr_lo n) with false by (symmetry; apply not_true_iff_false; rewrite lo_iff; unfold high, low in *; lia).
    apply hi_iff in Hn. apply lo_iff in Lm. rewrite Hn, Q', Lm, IH. apply utf8_form_iff in U as [_ ->].
    replace (65536 + 1024 * (n - 55296) + (m - 56320))%N with (65536 + (n - 55296) * 1024 + (m - 56320))%N by lia. reflexivity.
Qed.
Lemma jchars_chars k : forall l t r, length l <= k -> jchars l = Some (t, r) -> exists s, l = s ++ x22 :: r /\ chars s t.
Proof.
  induction k as [|k IH]; intros l t r L; [destruct l; [discriminate|cbn [length] in L; lia]|].
  destruct l as [|b l1]; [discriminate|]. cbn [length] in L.
  assert (P : forall (p l' : bytes) (X : Prop), length l' <= k -> match jchars l' with Some (s, r0) => Some (p ++ s, r0) | None => None end = Some (t, r) ->
    (forall s t', l' = s ++ x22 :: r -> chars s t' -> t = p ++ t' -> X) -> X).
  { intros p l' X LL E F. destruct (jchars l') as [[s0 r0]|] eqn:J; [|discriminate]. injection E as <- <-. apply IH in J as (s & E & H); [|exact LL]. eauto. }
  cbn [jchars]. destruct (Byte.eqb b x22) eqn:E1.
  { intros K. injection K as <- <-. apply beq in E1. subst b. exists []. split; [reflexivity|constructor]. }
  destruct (Byte.eqb b x5c) eqn:E2.
  - apply beq in E2. subst b. destruct l1 as [|e l2]; [discriminate|]. cbn [length] in L. destruct (Byte.eqb e x75) eqn:E3.
    + apply beq in E3. subst e. destruct l2 as [|a1 [|a2 [|a3 [|a4 l3]]]]; try discriminate. cbn [length] in L. destruct (hex4 a1 a2 a3 a4) as [n|] eqn:Q; [|discriminate].
      assert (Cn : code [a1; a2; a3; a4] n) by (apply code_iff; eauto 6). pose proof (code_lt _ _ Cn) as B.
      destruct (surr_lo n) eqn:SL; [discriminate|]. destruct (surr_hi n) eqn:SH.
      * destruct l3 as [|q [|u [|b1 [|b2 [|b3 [|b4 l4]]]]]]; try discriminate. cbn [length] in L. destruct (Byte.eqb q x5c && Byte.eqb u x75) eqn:E4; [|discriminate].
        apply andb_true_iff in E4 as [E4 E5]. apply beq in E4, E5. subst q u. destruct (hex4 b1 b2 b3 b4) as [m|] eqn:Q'; [|discriminate].
        assert (Cm : code [b1; b2; b3; b4] m) by (apply code_iff; eauto 6).
        destruct (surr_lo m) eqn:SM; [|discriminate]. intros H. eapply P; [|exact H|]; [lia|]. intros s t' -> Hs ->. apply hi_iff in SH. apply lo_iff in SM.
        exists (x5c :: x75 :: [a1; a2; a3; a4] ++ x5c :: x75 :: [b1; b2; b3; b4] ++ s). split; [reflexivity|].
        eapply c_pair; eauto. apply utf8_form_iff. unfold high, low in *. split; [lia|]. f_equal. lia.
      * intros H. eapply P; [|exact H|]; [lia|]. intros s t' -> Hs ->. exists (x5c :: x75 :: [a1; a2; a3; a4] ++ s). split; [reflexivity|].
        eapply c_code; eauto.
        -- rewrite <- hi_iff. congruence.
        -- rewrite <- lo_iff. congruence.
        -- apply utf8_form_iff. split; [lia|reflexivity].
    + destruct (unesc e) as [c|] eqn:U; [|discriminate]. intros H. eapply P; [|exact H|]; [lia|]. intros s t' -> Hs ->. exists (x5c :: e :: s). split; [reflexivity|].
      cbn [app]. constructor; [apply short_iff, U|exact Hs].
  - destruct (in_range 0 31 b) eqn:R; [discriminate|]. intros H. eapply P; [|exact H|]; [lia|]. intros s t' -> Hs ->. exists (b :: s). split; [reflexivity|].
    cbn [app]. constructor; auto.
    + unfold in_range in R. apply andb_false_iff in R as [R|R]; apply N.leb_gt in R; lia.
    + intros ->. discriminate.
    + intros ->. discriminate.
Qed.
(** after the opening quote *)
Lemma jstring_iff l t r : jstring l = Some (t, r) <-> exists q, x22 :: l = q ++ r /\ quoted q t.
Proof.
  unfold jstring, quoted. split.
  - destruct (jchars l) as [[s r0]|] eqn:J; [|discriminate]. destruct (sub_of utf8_valid s) as [u|] eqn:S; [|discriminate]. intros K. injection K as <- <-.
    apply sub_of_some in S. subst s. apply (jchars_chars (length l)) in J as (s & -> & H); [|lia]. exists (x22 :: s ++ [x22]). split; [cbn [app]; rewrite <- app_assoc; reflexivity|eauto].
  - intros (q & E & s & -> & H). cbn [app] in E. injection E as ->. rewrite <- app_assoc. cbn [app]. rewrite (chars_jchars _ _ H), sub_of_sv. reflexivity.
Qed.

(** numbers *)
Definition num_item (t : rstring) : cval := match as_int (sv t) with Some n => n | None => kept t end.
Lemma digit_x2d : digit x2d = false.
Proof. reflexivity. Qed.
Lemma number_text s t : number s t -> t <> []
  /\ (forallb digit t = true -> whole t) /\ (forall l, t = x2d :: l -> forallb digit l = true -> whole l /\ undec l <> 0%N).
Proof.
  intros (g & i & f & e & k & G & I & F & X & -> & T).
  assert (Z : whole [x30]). { split; [split; [discriminate|intros c [<-|[]]; apply dig_digit; reflexivity]|reflexivity]. }
  destruct T as [[_ ->]|[N ->]]; [split; [discriminate|]; split; [auto|discriminate]|].
  destruct I as [I0 I1]. pose proof I0 as I2. apply some_digits_iff in I2 as [I2 I3].
  assert (FK : forallb digit (f ++ k) = true -> f = [] /\ k = []).
  { rewrite forallb_app. intros H. apply andb_true_iff in H as [H1 H2]. split.
    - destruct F as [->|(d & -> & _)]; [reflexivity|discriminate].
    - destruct X as [[_ ->]|(a & b & c & _ & _ & _ & _ & ->)]; [reflexivity|discriminate]. }
  split; [destruct G as [->| ->]; [|discriminate]; destruct i; [congruence|discriminate]|]. destruct G as [->| ->]; cbn [app] in *.
  - split.
    + rewrite forallb_app. intros H. apply andb_true_iff in H as [_ H]. apply FK in H as [-> ->]. rewrite app_nil_r. split; assumption.
    + intros l E H. destruct i as [|b i]; [congruence|]. cbn [app] in E. injection E as -> _. discriminate.
  - split; [discriminate|]. intros l E H. injection E as <-. rewrite forallb_app in H. apply andb_true_iff in H as [_ H]. apply FK in H as [-> ->].
    rewrite app_nil_r in *. split; [split; assumption|]. intros U. apply N. f_equal. apply whole_unique; [split; assumption|exact Z|exact U].
Qed.
Lemma numeral_iff l n : numeral l n <-> whole l /\ undec l = n.
Proof. unfold numeral. rewrite worth0. tauto. Qed.
Lemma worth_iff s t v : number s (sv t) -> worth_item t v <-> v = num_item t.
Proof.
  intros H. apply number_text in H as (NE & W1 & W2). unfold worth_item, num_item, as_int.
  assert (WD : forall l, whole l -> forallb digit l = true). { intros l [D _]. apply some_digits_iff in D. tauto. }
  unfold scan_minus. destruct (sv t) as [|b l] eqn:T; [congruence|]. destruct (Byte.eqb b x2d) eqn:B.
  - apply beq in B. subst b. destruct (forallb digit l) eqn:D; cbn [andb].
    + destruct (W2 l eq_refl D) as [Wl Nz]. destruct (N.leb_spec (undec l) (2 ^ 63)%N) as [L|L].
      * replace (undec l =? 0)%N with false by (symmetry; apply N.eqb_neq, Nz).
        assert (U : uv (u_of 8 (undec l - 1)) = (undec l - 1)%N) by (apply uv_of_lt; change (pow256 8) with (2 ^ 64)%N; lia). split.
        -- intros [(n & K & _)|[(n & m & K & Nm & _ & ->)|(_ & K & _)]].
           ++ apply numeral_iff in K as [K _]. apply WD in K. discriminate.
           ++ injection K as <-. apply numeral_iff in Nm as [_ Nm]. f_equal. apply u_ext. rewrite U, Nm. lia.
           ++ specialize (K l (undec l) eq_refl). rewrite numeral_iff in K. specialize (K (conj Wl eq_refl)). lia.
        -- intros ->. right. left. exists (u_of 8 (undec l - 1)), l. rewrite U. split; [reflexivity|]. split; [|split; [lia|reflexivity]].
           apply numeral_iff. split; [exact Wl|lia].
      * split.
        -- intros [(n & K & _)|[(n & m & K & Nm & Q & ->)|(_ & _ & ->)]]; [| |reflexivity].
           ++ apply numeral_iff in K as [K _]. apply WD in K. discriminate.
           ++ injection K as <-. apply numeral_iff in Nm as [_ Nm]. lia.
        -- intros ->. right. right. split; [|split; [|reflexivity]].
           ++ intros n K. apply numeral_iff in K as [K _]. apply WD in K. discriminate.
           ++ intros m n K Nm. injection K as <-. apply numeral_iff in Nm as [_ <-]. exact L.
    + assert (X : forall n, ~ numeral l n) by (intros n K; apply numeral_iff in K as [K _]; apply WD in K; congruence). split.
      * intros [(n & K & _)|[(n & m & K & Nm & Q & ->)|(_ & _ & ->)]]; [| |reflexivity].
        -- apply numeral_iff in K as [K _]. apply WD in K. discriminate.
        -- injection K as <-. destruct (X _ Nm).
      * intros ->. right. right. split; [|split; [|reflexivity]].
        -- intros n K. apply numeral_iff in K as [K _]. apply WD in K. discriminate.
        -- intros m n K Nm. injection K as <-. destruct (X _ Nm).
  - assert (NM : forall m, b :: l <> x2d :: m) by (intros m K; injection K as -> _; discriminate).
    destruct (forallb digit (b :: l)) eqn:D; cbn [andb].
    + specialize (W1 eq_refl). destruct (N.ltb_spec (undec (b :: l)) (2 ^ 64)%N) as [L|L].
      * assert (U : uv (u_of 8 (undec (b :: l))) = undec (b :: l)) by (apply uv_of_lt; exact L). split.
        -- intros [(n & K & ->)|[(n & m & K & _)|(K & _)]].
           ++ apply numeral_iff in K as [_ K]. f_equal. apply u_ext. rewrite U. symmetry. exact K.
           ++ destruct (NM _ K).
           ++ specialize (K (undec (b :: l))). rewrite numeral_iff in K. specialize (K (conj W1 eq_refl)). lia.
        -- intros ->. left. exists (u_of 8 (undec (b :: l))). rewrite U. split; [|reflexivity]. apply numeral_iff. auto.
      * split.
        -- intros [(n & K & _)|[(n & m & K & _)|(_ & _ & ->)]]; [|destruct (NM _ K)|reflexivity].
           apply numeral_iff in K as [_ K]. pose proof (uv_lt n) as B2. change (pow256 8) with (2 ^ 64)%N in B2. lia.
        -- intros ->. right. right. split; [|split; [|reflexivity]].
           ++ intros n K. apply numeral_iff in K as [_ <-]. exact L.
           ++ intros m n K. destruct (NM _ K).
    + assert (X : forall n, ~ numeral (b :: l) n) by (intros n K; apply numeral_iff in K as [K _]; apply WD in K; congruence). split.
      * intros [(n & K & _)|[(n & m & K & _)|(_ & _ & ->)]]; [destruct (X _ K)|destruct (NM _ K)|reflexivity].
      * intros ->. right. right. split; [|split; [|reflexivity]].
        -- intros n K. destruct (X _ K).
        -- intros m n K. destruct (NM _ K).
Qed.
Lemma norm_item (s t : rstring) : num_norm (sv s) = sv t -> content (JNum s) = num_item t.
Proof.
  unfold num_norm, num_item. destruct (bytes_eqb (sv s) [x2d; x30]) eqn:B; intros H.
  - apply bytes_eqb_eq in B. cbn [content]. rewrite B, <- H. reflexivity.
  - apply sub_ext in H. subst t. reflexivity.
Qed.
Lemma jnumber_sound l j r : jnumber l = Some (j, r) -> exists s t, l = s ++ r /\ number s (sv t) /\ content j = num_item t.
Proof.
  unfold jnumber. destruct (scan_num l) as [[u r0]|] eqn:E; [|discriminate]. destruct (num_text u) as [j0|] eqn:T; [|discriminate].
  intros K. injection K as <- <-. apply num_text_iff in T as (x & -> & <-). apply scan_number in E as (s & -> & H). exists s.
  assert (V : utf8_valid (num_norm (sv x)) = true).
  { unfold num_norm. destruct (bytes_eqb (sv x) [x2d; x30]); [reflexivity|apply s_ok]. }
  exists (mk_sub _ V). split; [reflexivity|]. split; [exact H|]. apply norm_item. reflexivity.
Qed.
Lemma jnumber_complete s t r : number s (sv t) -> stops r = true -> exists j, jnumber (s ++ r) = Some (j, r) /\ content j = num_item t.
Proof.
  intros H R. destruct (number_scan _ _ _ H R) as (u & E & N).
  assert (V : utf8_valid u = true).
  { unfold num_norm in N. destruct (bytes_eqb u [x2d; x30]) eqn:B; [apply bytes_eqb_eq in B; subst u; reflexivity|subst u; apply s_ok]. }
  exists (JNum (mk_sub u V)). split; [|apply norm_item, N]. unfold jnumber. rewrite E.
  rewrite (proj2 (num_text_iff u (JNum (mk_sub u V)))); [reflexivity|]. eauto.
Qed.
Lemma number_head s t : number s t -> exists b l, s = b :: l /\ (b = x2d \/ digit b = true).
Proof.
  intros (g & i & f & e & k & [->| ->] & [D _] & _ & _ & -> & _); cbn [app]; [|eauto]. apply some_digits_iff in D as [N D].
  destruct i as [|b i]; [congruence|]. cbn [forallb] in D. apply andb_true_iff in D as [D _]. cbn [app]. eauto.
Qed.

(** lists *)
Section Items.
  Context {A B : Type} (dec : bytes -> option (A * bytes)) (g : A -> B) (R : bytes -> B -> Prop) (close : byte).
  Hypothesis Wc : is_ws close = false.
  Hypothesis Nc : Byte.eqb x2c close = false.
  Hypothesis Sc : stops [close] = true.
  Hypothesis sound : forall l x r, dec l = Some (x, r) -> exists a s, l = a ++ s ++ r /\ space a /\ R s (g x).
  Hypothesis complete : forall a s v r, space a -> R s v -> stops r = true -> exists x, dec (a ++ s ++ r) = Some (x, r) /\ g x = v.
  Hypothesis shut : forall l r, skip_ws l = close :: r -> dec l = None.

  Lemma jitems_sound f : forall l xs r, jitems dec close f l = Some (xs, r) ->
    xs <> [] /\ exists ps, Forall2 (padded R) ps (map g xs) /\ l = join ps ++ close :: r.
  Proof.
    induction f as [|f IH]; intros l xs r; cbn [jitems]; [discriminate|]. destruct (dec l) as [[x q]|] eqn:E; [|discriminate].
    apply sound in E as (a & s & -> & Sa & H). destruct (skip_split q) as (b & Eq & Sb & _). destruct (skip_ws q) as [|c q']; [discriminate|].
    destruct (Byte.eqb c close) eqn:Cc.
    - apply beq in Cc. subst c. intros K. injection K as <- <-. split; [discriminate|]. exists [a ++ s ++ b]. split.
      + repeat constructor. exists a, s, b. auto.
      + cbn [join]. rewrite app_nil_r, Eq, <- !app_assoc. reflexivity.
    - destruct (Byte.eqb c x2c) eqn:C2; [|discriminate]. apply beq in C2. subst c. destruct (jitems dec close f q') as [[ys q'']|] eqn:J; [|discriminate].
      intros K. injection K as <- <-. apply IH in J as (NE & ps & F & ->). split; [discriminate|]. exists ((a ++ s ++ b) :: ps). split.
      + constructor; [|exact F]. exists a, s, b. auto.
      + cbn [join]. destruct ps as [|p ps]; [inversion F; destruct ys; [congruence|discriminate]|]. rewrite Eq, <- !app_assoc. reflexivity.
  Qed.
  Lemma jitems_complete : forall ps vs, Forall2 (padded R) ps vs -> vs <> [] -> forall f r, length vs <= f ->
    exists xs, jitems dec close f (join ps ++ close :: r) = Some (xs, r) /\ map g xs = vs.
  Proof.
    intros ps vs F. induction F as [|p v ps vs (a & s & b & -> & Sa & Sb & H) F IH]; intros NE f r L; [congruence|].
    destruct f as [|f]; [cbn [length] in L; lia|]. cbn [join jitems]. rewrite <- !app_assoc.
    assert (CC : Byte.eqb close close = true) by (apply beq; reflexivity).
    destruct ps as [|p ps].
    - inversion F. subst vs. cbn [app]. destruct (complete a s v (b ++ close :: r) Sa H) as (x & E & G).
      { apply space_stops; [exact Sb|exact Sc]. }
      rewrite E. rewrite skip_ws_app by (apply space_iff, Sb). rewrite (skip_ws_stop close r Wc), CC. exists [x]. cbn [map]. split; [reflexivity|congruence].
    - destruct (complete a s v (b ++ (x2c :: join (p :: ps)) ++ close :: r) Sa H) as (x & E & G).
      { apply space_stops; [exact Sb|reflexivity]. }
      rewrite E. rewrite skip_ws_app by (apply space_iff, Sb). cbn [app]. rewrite (skip_ws_stop x2c) by reflexivity. rewrite Nc.
      change (Byte.eqb x2c x2c) with true. cbv iota. destruct (IH ltac:(inversion F; discriminate) f r ltac:(cbn [length] in L; lia)) as (xs & J & M).
      rewrite J. exists (x :: xs). split; [reflexivity|]. cbn [map]. congruence.
  Qed.
  Lemma join_len (ps : list bytes) : length ps <= S (length (join ps)).
  Proof.
    induction ps as [|p ps IH]; [cbn; lia|]. cbn [join length]. rewrite app_length. destruct ps as [|q ps]; [cbn [length]; lia|].
    cbn [length] in *. lia.
  Qed.
  Lemma Forall2_len {X Y} (P : X -> Y -> Prop) l m : Forall2 P l m -> length l = length m.
  Proof. induction 1; cbn [length]; congruence. Qed.
  (** after the opening bracket [o] *)
  Lemma jseq_sound o l xs r : jseq dec close l = Some (xs, r) -> exists q, o :: l = q ++ r /\ enclosed R o close q (map g xs).
  Proof.
    unfold jseq. destruct (skip_split l) as (a & E & Sa & _). destruct (skip_ws l) as [|b q]; [discriminate|]. destruct (Byte.eqb b close) eqn:Cc.
    - apply beq in Cc. subst b. intros K. injection K as <- <-. exists (o :: a ++ [close]). split; [rewrite E; cbn [app]; rewrite <- app_assoc; reflexivity|].
      exists a. split; [reflexivity|]. left. auto.
    - intros J. apply jitems_sound in J as (NE & ps & F & ->). exists (o :: join ps ++ [close]). split; [cbn [app]; rewrite <- app_assoc; reflexivity|].
      exists (join ps). split; [reflexivity|]. right. split; [destruct xs; [congruence|discriminate]|eauto].
  Qed.
  Lemma jseq_complete o q vs l r : enclosed R o close q vs -> o :: l = q ++ r -> exists xs, jseq dec close l = Some (xs, r) /\ map g xs = vs.
  Proof.
    intros (body & -> & H) E. cbn [app] in E. injection E as ->. rewrite <- app_assoc. cbn [app]. unfold jseq.
    assert (CC : Byte.eqb close close = true) by (apply beq; reflexivity).
    destruct H as [(-> & Sb)|(NE & ps & F & ->)].
    - rewrite skip_ws_app by (apply space_iff, Sb). rewrite (skip_ws_stop close r Wc), CC. exists []. auto.
    - destruct (jitems_complete ps vs F NE (length (join ps ++ close :: r)) r) as (xs & J & M).
      { rewrite app_length. cbn [length]. pose proof (join_len ps). apply Forall2_len in F. lia. }
      destruct (skip_ws (join ps ++ close :: r)) as [|b q] eqn:S.
      + exfalso. destruct (skip_split (join ps ++ close :: r)) as (a & E & Sa & _). rewrite S, app_nil_r in E.
        assert (I : In close a) by (rewrite <- E; apply in_app_iff; right; left; reflexivity). apply space_iff in Sa. rewrite forallb_forall in Sa. apply Sa in I. congruence.
      + destruct (Byte.eqb b close) eqn:Bc; [|eauto]. exfalso. apply beq in Bc. subst b. apply shut in S.
        destruct (length (join ps ++ close :: r)); cbn [jitems] in J; [discriminate|]. rewrite S in J. discriminate.
  Qed.
End Items.

(** values *)
Lemma jdec_eq d l : jdec d l =
  match skip_ws l with
  | [] => None
  | b :: r =>
      if Byte.eqb b x22 then match jstring r with Some (s, r') => Some (JStr s, r') | None => None end
      else if Byte.eqb b x5b then
        match d with O => None | S d' => match jseq (jdec d') x5d r with Some (xs, r') => Some (JArr xs, r') | None => None end end
      else if Byte.eqb b x7b then
        match d with O => None | S d' => match jseq (jpair (jdec d')) x7d r with Some (xs, r') => Some (JObj xs, r') | None => None end end
      else if Byte.eqb b x6e then expect (String.list_byte_of_string "ull") JNull r
      else if Byte.eqb b x74 then expect (String.list_byte_of_string "rue") (JBool true) r
      else if Byte.eqb b x66 then expect (String.list_byte_of_string "alse") (JBool false) r
      else jnumber (b :: r)
  end.
Proof. destruct d; reflexivity. Qed.
Definition gp (p : rstring * jval) : cval * cval := match p with (k, v) => (CText k, content v) end.
Definition shut_at (d : nat) : Prop := forall l r, skip_ws l = x5d :: r -> jdec d l = None.
Lemma jdec_shut d : shut_at d.
Proof. intros l r E. rewrite jdec_eq, E. reflexivity. Qed.
Lemma expect_iff w j l x r : expect w j l = Some (x, r) <-> l = w ++ r /\ x = j.
Proof.
  unfold expect. destruct (bytes_eqb (firstn (length w) l) w) eqn:E; split.
  - intros K. injection K as <- <-. apply bytes_eqb_eq in E. split; [|reflexivity]. rewrite <- E at 1. symmetry. apply firstn_skipn.
  - intros [-> ->]. rewrite skipn_app, Nat.sub_diag, skipn_all. reflexivity.
  - discriminate.
  - intros [-> ->]. rewrite firstn_app, Nat.sub_diag, firstn_O, app_nil_r, firstn_all, bytes_eqb_refl in E. discriminate.
Qed.

Section Values.
  Variable d : nat.
  Hypothesis sound : forall l x r, jdec d l = Some (x, r) -> exists a s, l = a ++ s ++ r /\ space a /\ doc d s (content x).
  Hypothesis complete : forall a s v r, space a -> doc d s v -> stops r = true -> exists x, jdec d (a ++ s ++ r) = Some (x, r) /\ content x = v.
  Lemma jpair_sound l x r : jpair (jdec d) l = Some (x, r) -> exists a s, l = a ++ s ++ r /\ space a /\ entry (doc d) s (gp x).
  Proof.
    unfold jpair. destruct (skip_split l) as (a & E & Sa & _). destruct (skip_ws l) as [|b l1]; [discriminate|]. destruct (Byte.eqb b x22) eqn:B; [|discriminate].
    apply beq in B. subst b. destruct (jstring l1) as [[k l2]|] eqn:J; [|discriminate]. apply jstring_iff in J as (q & Eq & Q).
    destruct (skip_split l2) as (a2 & E2 & S2 & _). destruct (skip_ws l2) as [|c l3]; [discriminate|]. destruct (Byte.eqb c x3a) eqn:Cc; [|discriminate].
    apply beq in Cc. subst c. destruct (jdec d l3) as [[v r0]|] eqn:V; [|discriminate]. apply sound in V as (b3 & s3 & -> & S3 & V). intros K. injection K as <- <-.
    exists a, (q ++ a2 ++ x3a :: b3 ++ s3). split; [|split; [exact Sa|]].
    - rewrite E, Eq, E2. repeat (rewrite <- !app_assoc; cbn [app]). reflexivity.
    - exists k, q, a2, b3, s3. unfold gp. cbn [fst snd]. auto 7.
  Qed.
  Lemma jpair_complete a s v r : space a -> entry (doc d) s v -> stops r = true -> exists x, jpair (jdec d) (a ++ s ++ r) = Some (x, r) /\ gp x = v.
  Proof.
    intros Sa (k & q & a2 & b3 & s3 & F & Q & S2 & S3 & V & ->) R. unfold jpair. rewrite skip_ws_app by (apply space_iff, Sa).
    repeat (rewrite <- !app_assoc; cbn [app]).
    assert (H : exists l1, q = x22 :: l1) by (destruct Q as (s & -> & _); eauto). destruct H as (l1 & ->). cbn [app].
    rewrite (skip_ws_stop x22) by reflexivity. change (Byte.eqb x22 x22) with true. cbv iota.
    rewrite (proj2 (jstring_iff (l1 ++ a2 ++ x3a :: b3 ++ s3 ++ r) k (a2 ++ x3a :: b3 ++ s3 ++ r))) by (exists (x22 :: l1); auto).
    rewrite skip_ws_app by (apply space_iff, S2). rewrite (skip_ws_stop x3a) by reflexivity. change (Byte.eqb x3a x3a) with true. cbv iota.
    destruct (complete b3 s3 (snd v) r S3 V R) as (x & E & G). rewrite E. exists (k, x). split; [reflexivity|]. unfold gp. rewrite G, <- F. destruct v; reflexivity.
  Qed.
  Lemma jpair_shut l r : skip_ws l = x7d :: r -> jpair (jdec d) l = None.
  Proof. intros E. unfold jpair. rewrite E. reflexivity. Qed.
End Values.

Lemma doc_eq d l v : doc d l v <->
  (l = sv (name "null") /\ v = CNull \/ l = sv (name "true") /\ v = CBool true \/ l = sv (name "false") /\ v = CBool false
  \/ (exists t, number l (sv t) /\ worth_item t v) \/ (exists t, quoted l t /\ v = CText t)
  \/ exists d', d = S d' /\ ((exists vs, enclosed (doc d') x5b x5d l vs /\ v = CArr vs) \/ (exists m, enclosed (entry (doc d')) x7b x7d l m /\ v = CMap m))).
Proof.
  destruct d; cbn [doc].
  - split; [tauto|]. intros [H|[H|[H|[H|[H|(d' & K & _)]]]]]; try discriminate; tauto.
  - split.
    + intros [H|[H|[H|[H|[H|H]]]]]; try tauto. do 5 right. eauto.
    + intros [H|[H|[H|[H|[H|(d' & K & H)]]]]]; try tauto. injection K as <-. tauto.
Qed.
Lemma jdec_iff d :
  (forall l x r, jdec d l = Some (x, r) -> exists a s, l = a ++ s ++ r /\ space a /\ doc d s (content x))
  /\ (forall a s v r, space a -> doc d s v -> stops r = true -> exists x, jdec d (a ++ s ++ r) = Some (x, r) /\ content x = v).
Proof.
  assert (G : forall d, (forall d', d = S d' ->
      (forall l x r, jdec d' l = Some (x, r) -> exists a s, l = a ++ s ++ r /\ space a /\ doc d' s (content x))
      /\ (forall a s v r, space a -> doc d' s v -> stops r = true -> exists x, jdec d' (a ++ s ++ r) = Some (x, r) /\ content x = v)) ->
    (forall l x r, jdec d l = Some (x, r) -> exists a s, l = a ++ s ++ r /\ space a /\ doc d s (content x))
    /\ (forall a s v r, space a -> doc d s v -> stops r = true -> exists x, jdec d (a ++ s ++ r) = Some (x, r) /\ content x = v));
  [|induction d as [|d IH]; apply G; [discriminate|intros d' E; injection E as <-; exact IH]].
  clear d. intros d IH. split.
  - intros l x r. rewrite jdec_eq. destruct (skip_split l) as (a & E & Sa & _). destruct (skip_ws l) as [|b q]; [discriminate|].
    assert (X : forall s, b :: q = s ++ r -> doc d s (content x) -> exists a s, l = a ++ s ++ r /\ space a /\ doc d s (content x)).
    { intros s Es D. exists a, s. rewrite E, Es. auto. }
    destruct (Byte.eqb b x22) eqn:B1.
    { apply beq in B1. subst b. destruct (jstring q) as [[t q']|] eqn:J; [|discriminate]. intros K. injection K as <- <-. apply jstring_iff in J as (p & Ep & Q).
      apply (X p Ep). apply doc_eq. do 4 right. left. exists t. auto. }
    destruct (Byte.eqb b x5b) eqn:B2.
    { apply beq in B2. subst b. destruct d as [|d]; [discriminate|]. destruct (jseq (jdec d) x5d q) as [[xs q']|] eqn:J; [|discriminate]. intros K. injection K as <- <-.
      eapply jseq_sound with (g := content) (R := doc d) (o := x5b) in J as (p & Ep & Q); [|exact (proj1 (IH d eq_refl))].
      apply (X p Ep). apply doc_eq. do 5 right. exists d. split; [reflexivity|]. left. eexists. split; [exact Q|reflexivity]. }
    destruct (Byte.eqb b x7b) eqn:B3.
    { apply beq in B3. subst b. destruct d as [|d]; [discriminate|]. destruct (jseq (jpair (jdec d)) x7d q) as [[xs q']|] eqn:J; [|discriminate]. intros K. injection K as <- <-.
      eapply jseq_sound with (g := gp) (R := entry (doc d)) (o := x7b) in J as (p & Ep & Q); [|exact (jpair_sound d (proj1 (IH d eq_refl)))].
      apply (X p Ep). apply doc_eq. do 5 right. exists d. split; [reflexivity|]. right. eexists. split; [exact Q|reflexivity]. }
    destruct (Byte.eqb b x6e) eqn:B4.
    { apply beq in B4. subst b. intros H. apply expect_iff in H as [-> ->]. apply (X (sv (name "null")) eq_refl). apply doc_eq. auto. }
    destruct (Byte.eqb b x74) eqn:B5.
    { apply beq in B5. subst b. intros H. apply expect_iff in H as [-> ->]. apply (X (sv (name "true")) eq_refl). apply doc_eq. auto. }
    destruct (Byte.eqb b x66) eqn:B6.
    { apply beq in B6. subst b. intros H. apply expect_iff in H as [-> ->]. apply (X (sv (name "false")) eq_refl). apply doc_eq. auto 6. }
    intros H. apply jnumber_sound in H as (s & t & Es & N & Cx). apply (X s Es). apply doc_eq. do 3 right. left. exists t. split; [exact N|].
    apply (worth_iff _ _ _ N). exact Cx.
  - intros a s v r Sa D R. rewrite jdec_eq, skip_ws_app by (apply space_iff, Sa). apply doc_eq in D.
    destruct D as [[-> ->]|[[-> ->]|[[-> ->]|[(t & N & W)|[(t & Q & ->)|(d' & -> & D)]]]]].
    + exists JNull. split; reflexivity.
    + exists (JBool true). split; reflexivity.
    + exists (JBool false). split; reflexivity.
    + destruct (jnumber_complete _ _ _ N R) as (j & J & Cj). exists j. apply (worth_iff _ _ _ N) in W. split; [|congruence].
      destruct (number_head _ _ N) as (b & l & -> & Hb). cbn [app] in *.
      assert (X : is_ws b = false /\ Byte.eqb b x22 = false /\ Byte.eqb b x5b = false /\ Byte.eqb b x7b = false /\ Byte.eqb b x6e = false
                  /\ Byte.eqb b x74 = false /\ Byte.eqb b x66 = false).
      { destruct Hb as [->|Hb]; [repeat split; reflexivity|]. unfold is_ws. rewrite !(digit_neq b) by (exact Hb || reflexivity). auto 8. }
      destruct X as (X0 & X1 & X2 & X3 & X4 & X5 & X6). rewrite (skip_ws_stop b _ X0), X1, X2, X3, X4, X5, X6. exact J.
    + assert (H : exists l1, s = x22 :: l1) by (destruct Q as (z & -> & _); eauto). destruct H as (l1 & ->). cbn [app].
      rewrite (skip_ws_stop x22) by reflexivity. change (Byte.eqb x22 x22) with true. cbv iota.
      rewrite (proj2 (jstring_iff (l1 ++ r) t r)) by (exists (x22 :: l1); auto). exists (JStr t). auto.
    + destruct (IH d' eq_refl) as [IS IC]. destruct D as [(vs & H & ->)|(m & H & ->)].
      * assert (K : exists l1, s = x5b :: l1) by (destruct H as (z & -> & _); eauto). destruct K as (l1 & ->). cbn [app].
        rewrite (skip_ws_stop x5b) by reflexivity. change (Byte.eqb x5b x22) with false. change (Byte.eqb x5b x5b) with true. cbv iota.
        destruct (jseq_complete (jdec d') content (doc d') x5d eq_refl eq_refl eq_refl IS IC (jdec_shut d') x5b (x5b :: l1) vs (l1 ++ r) r H eq_refl) as (xs & E & M).
        rewrite E. exists (JArr xs). split; [reflexivity|]. cbn [content]. congruence.
      * assert (K : exists l1, s = x7b :: l1) by (destruct H as (z & -> & _); eauto). destruct K as (l1 & ->). cbn [app].
        rewrite (skip_ws_stop x7b) by reflexivity. change (Byte.eqb x7b x22) with false. change (Byte.eqb x7b x5b) with false. change (Byte.eqb x7b x7b) with true. cbv iota.
        destruct (jseq_complete (jpair (jdec d')) gp (entry (doc d')) x7d eq_refl eq_refl eq_refl (jpair_sound d' IS) (jpair_complete d' IC) (jpair_shut d') x7b (x7b :: l1) m (l1 ++ r) r H eq_refl) as (xs & E & M).
        rewrite E. exists (JObj xs). split; [reflexivity|]. rewrite <- M. reflexivity.
Qed.
Theorem json_iff l v : (exists j, jparse l = Some j /\ content j = v) <-> document l v.
Proof.
  destruct (jdec_iff max_depth) as [IS IC]. unfold jparse, document, padded. split.
  - intros (j & H & <-). destruct (jdec max_depth l) as [[x r]|] eqn:E; [|discriminate]. apply IS in E as (a & s & -> & Sa & D).
    destruct (skip_split r) as (b & Eb & Sb & _). destruct (skip_ws r); [|discriminate]. injection H as ->. rewrite app_nil_r in Eb. subst r. exists a, s, b. auto.
  - intros (a & s & b & -> & Sa & Sb & D). destruct (IC a s v b Sa D) as (x & E & Cx).
    { rewrite <- (app_nil_r b). apply space_stops; [exact Sb|reflexivity]. }
    exists x. rewrite E. split; [|exact Cx]. rewrite <- (app_nil_r b), skip_ws_app by (apply space_iff, Sb). reflexivity.
Qed.
