(** * CBOR: decoding inverts encoding; the encoding is injective. *)
From Verif Require Import Base BaseFacts Utf8 Cbor.
From Coq Require Import ZifyBool ZifyNat ZifyN.

Section cval_ind.
  Variable P : cval -> Prop.
  Hypothesis HU : forall n, P (CUint n).
  Hypothesis HN : forall n, P (CNint n).
  Hypothesis HB : forall b, P (CBytes b).
  Hypothesis HT : forall s, P (CText s).
  Hypothesis HA : forall l, Forall P l -> P (CArr l).
  Hypothesis HM : forall l, Forall (fun p => P (fst p) /\ P (snd p)) l -> P (CMap l).
  Hypothesis HBo : forall b, P (CBool b).
  Hypothesis HNu : P CNull.
  Hypothesis H32 : forall n, P (CF32 n).
  Hypothesis H64 : forall n, P (CF64 n).
  Fixpoint cval_ind' (v : cval) : P v :=
    match v with
    | CUint n => HU n
    | CNint n => HN n
    | CBytes b => HB b
    | CText s => HT s
    | CArr l => HA l ((fix go l : Forall P l :=
                         match l with [] => Forall_nil _ | x :: l' => Forall_cons _ (cval_ind' x) (go l') end) l)
    | CMap l => HM l ((fix go l : Forall (fun p => P (fst p) /\ P (snd p)) l :=
                         match l with
                         | [] => Forall_nil _
                         | x :: l' => Forall_cons _ (conj (cval_ind' (fst x)) (cval_ind' (snd x))) (go l')
                         end) l)
    | CBool b => HBo b
    | CNull => HNu
    | CF32 n => H32 n
    | CF64 n => H64 n
    end.
End cval_ind.

(** ** headers *)
Lemma take_be_app k n r : take_be k (be_list k n ++ r) = Some (N.modulo n (pow256 k), r).
Proof.
  unfold take_be. rewrite app_length, be_list_length.
  rewrite (proj2 (Nat.leb_le k (k + length r))) by lia.
  rewrite firstn_app, be_list_length, Nat.sub_diag, firstn_all2 by (rewrite be_list_length; auto).
  rewrite skipn_app, be_list_length, Nat.sub_diag, skipn_all2 by (rewrite be_list_length; auto).
  cbn [firstn skipn app]. rewrite app_nil_r, be_val_list. reflexivity.
Qed.

Definition head_ai (n : N) : N :=
  if (n <? 24)%N then n else if (n <? 256)%N then 24%N else if (n <? 65536)%N then 25%N
  else if (n <? 4294967296)%N then 26%N else 27%N.

Lemma dhead_chead m n r :
  (m < 8)%N -> (n < pow256 8)%N ->
  dhead (chead m n ++ r) = Some (m, head_ai n, n, r).
Proof.
  intros Hm Hn. unfold chead, head_ai.
  assert (D : forall a, (a < 32)%N ->
     N.div (u8v (u8_of (32 * m + a))) 32 = m /\ N.modulo (u8v (u8_of (32 * m + a))) 32 = a).
  { intros a Ha. rewrite u8v_u8_of, N.mod_small by lia. split.
    - symmetry. apply (N.div_unique _ _ _ a); lia.
    - symmetry. apply (N.mod_unique _ _ m); lia. }
  destruct (N.ltb_spec n 24).
  { cbn [app dhead]. destruct (D n) as [-> ->]; [lia|].
    destruct (N.ltb_spec n 24); [reflexivity|lia]. }
  destruct (N.ltb_spec n 256).
  { cbn [app]. unfold dhead. destruct (D 24%N) as [-> ->]; [lia|].
    change ((24 <? 24)%N) with false. change ((24 =? 24)%N) with true. cbv iota.
    rewrite take_be_app. change (pow256 1) with 256%N. rewrite N.mod_small by lia. reflexivity. }
  destruct (N.ltb_spec n 65536).
  { cbn [app]. unfold dhead. destruct (D 25%N) as [-> ->]; [lia|].
    change ((25 <? 24)%N) with false. change ((25 =? 24)%N) with false. change ((25 =? 25)%N) with true. cbv iota.
    rewrite take_be_app. change (pow256 2) with 65536%N. rewrite N.mod_small by lia. reflexivity. }
  destruct (N.ltb_spec n 4294967296).
  { cbn [app]. unfold dhead. destruct (D 26%N) as [-> ->]; [lia|].
    change ((26 <? 24)%N) with false. change ((26 =? 24)%N) with false. change ((26 =? 25)%N) with false.
    change ((26 =? 26)%N) with true. cbv iota.
    rewrite take_be_app. change (pow256 4) with 4294967296%N. rewrite N.mod_small by lia. reflexivity. }
  cbn [app]. unfold dhead. destruct (D 27%N) as [-> ->]; [lia|].
  change ((27 <? 24)%N) with false. change ((27 =? 24)%N) with false. change ((27 =? 25)%N) with false.
  change ((27 =? 26)%N) with false. change ((27 =? 27)%N) with true. cbv iota.
  rewrite take_be_app. rewrite N.mod_small by lia. reflexivity.
Qed.

Lemma chead_nonempty m n : 1 <= length (chead m n).
Proof.
  unfold chead. repeat match goal with |- context [if ?b then _ else _] => destruct b end; cbn; lia.
Qed.

Lemma cenc_nonempty v : 1 <= length (cenc v).
Proof.
  destruct v; cbn [cenc]; try (destruct b); try rewrite app_length;
    try (match goal with |- context [chead ?a ?b] => pose proof (chead_nonempty a b) end); cbn; lia.
Qed.

Lemma take_bytes_app b r : take_bytes (clen b) (b ++ r) = Some (b, r).
Proof.
  unfold take_bytes, clen. rewrite app_length.
  destruct (N.leb_spec (N.of_nat (length b)) (N.of_nat (length b + length r))); [|lia].
  rewrite Nat2N.id, firstn_app, Nat.sub_diag, firstn_all, skipn_app, Nat.sub_diag, skipn_all.
  cbn. rewrite app_nil_r. reflexivity.
Qed.

Lemma ditems_app {A} (dec : bytes -> option (A * bytes)) (enc : A -> bytes) xs r :
  (forall x, In x xs -> forall r, dec (enc x ++ r) = Some (x, r)) ->
  (forall x, In x xs -> 1 <= length (enc x)) ->
  forall fuel, length (flat_map enc xs) <= fuel ->
  ditems dec fuel (clen xs) (flat_map enc xs ++ r) = Some (xs, r).
Proof.
  induction xs as [|x xs IH]; intros Hd Hl fuel Hf.
  - destruct fuel; reflexivity.
  - cbn [flat_map] in *. rewrite app_length in Hf.
    pose proof (Hl x (or_introl eq_refl)) as Hx.
    destruct fuel as [|fuel]; [lia|].
    cbn [ditems]. replace (clen (x :: xs) =? 0)%N with false by (unfold clen; cbn [length]; lia).
    rewrite <- app_assoc, Hd by (left; reflexivity).
    replace (clen (x :: xs) - 1)%N with (clen xs) by (unfold clen; cbn [length]; lia).
    rewrite IH; auto with datatypes. lia.
Qed.

Lemma fold_max_le {A} (f : A -> nat) l d :
  fold_right (fun x m => Nat.max (f x) m) 0 l <= d -> forall x, In x l -> f x <= d.
Proof.
  induction l as [|a l IH]; cbn; intros H x Hx; [contradiction|].
  destruct Hx as [->|Hx]; [lia|]. apply IH; [lia|assumption].
Qed.

Lemma cdec_cenc v : forall d r, cwf v = true -> cdepth v <= d -> cdec d (cenc v ++ r) = Some (v, r).
Proof.
  assert (UU : forall k (n : uN k), u_of k (uv n) = n).
  { intros k n. apply u_ext. cbn. apply N.mod_small, uv_lt. }
  induction v using cval_ind'; intros d r Hw Hd; cbn [cenc cwf cdepth] in *.
  - destruct d; cbn [cdec]; rewrite dhead_chead by (try lia; apply uv_lt); cbn; rewrite UU; reflexivity.
  - destruct d; cbn [cdec]; rewrite dhead_chead by (try lia; apply uv_lt); cbn; rewrite UU; reflexivity.
  - rewrite <- app_assoc.
    destruct d; cbn [cdec]; rewrite dhead_chead by (try lia; apply N.ltb_lt; exact Hw);
      cbn [N.eqb Pos.eqb]; rewrite take_bytes_app; reflexivity.
  - rewrite <- app_assoc.
    destruct d; cbn [cdec]; rewrite dhead_chead by (try lia; apply N.ltb_lt; exact Hw);
      cbn [N.eqb Pos.eqb]; rewrite take_bytes_app, sub_of_sv; reflexivity.
  - destruct d as [|d]; [lia|]. rewrite <- app_assoc.
    apply andb_true_iff in Hw as [Hw1 Hw2]. apply N.ltb_lt in Hw1.
    cbn [cdec]. rewrite dhead_chead by (try lia; exact Hw1). cbn [N.eqb Pos.eqb].
    rewrite (ditems_app (cdec d) cenc); [reflexivity| | |rewrite app_length; lia].
    + intros x Hx r'. rewrite Forall_forall in H. apply H; auto.
      * eapply forallb_forall in Hw2; eauto.
      * eapply fold_max_le in Hx; [exact Hx|]. lia.
    + intros x _. apply cenc_nonempty.
  - destruct d as [|d]; [lia|]. rewrite <- app_assoc.
    apply andb_true_iff in Hw as [Hw1 Hw2]. apply N.ltb_lt in Hw1.
    cbn [cdec]. rewrite dhead_chead by (try lia; exact Hw1). cbn [N.eqb Pos.eqb].
    rewrite (ditems_app (dpair (cdec d) (cdec d)) (fun p => match p with (a, b) => cenc a ++ cenc b end));
      [reflexivity| | |rewrite app_length; apply Nat.le_add_r].
    + intros [a b] Hx r'. rewrite Forall_forall in H. destruct (H _ Hx) as [Ha Hb]. cbn in Ha, Hb.
      eapply forallb_forall in Hw2; eauto. cbn in Hw2. apply andb_true_iff in Hw2 as [Hwa Hwb].
      pose proof (fold_max_le (fun p => match p with (a, b) => Nat.max (cdepth a) (cdepth b) end) l d) as HM.
      assert (HD : Nat.max (cdepth a) (cdepth b) <= d).
      { apply (HM) with (x := (a, b)); [|exact Hx].
        clear -Hd. assert (E : forall l : list (cval*cval), 
          fold_right (fun (x : cval * cval) (m : nat) => Nat.max (let (a, b) := x in Nat.max (cdepth a) (cdepth b)) m) 0 l
          = fold_right (fun p m => match p with (a, b) => Nat.max (Nat.max (cdepth a) (cdepth b)) m end) 0 l).
        { induction l0 as [|[x y] l0 IH]; cbn; [reflexivity|]. rewrite IH. reflexivity. }
        rewrite E. lia. }
      unfold dpair. rewrite <- app_assoc, Ha by (auto; lia). rewrite Hb by (auto; lia). reflexivity.
    + intros [a b] _. rewrite app_length. pose proof (cenc_nonempty a). lia.
  - destruct b, d; reflexivity.
  - destruct d; reflexivity.
  - assert (E : dhead ((xfa :: be_list 4 (uv n)) ++ r) = Some (7, 26, uv n, r)%N).
    { cbn [app]. unfold dhead. change (u8v xfa) with 250%N.
      change (250 / 32)%N with 7%N. change (250 mod 32)%N with 26%N.
      change ((26 <? 24)%N) with false. change ((26 =? 24)%N) with false. change ((26 =? 25)%N) with false.
      change ((26 =? 26)%N) with true. cbv iota. rewrite take_be_app, N.mod_small by apply uv_lt. reflexivity. }
    destruct d; cbn [cdec]; rewrite E; cbn; rewrite UU; reflexivity.
  - assert (E : dhead ((xfb :: be_list 8 (uv n)) ++ r) = Some (7, 27, uv n, r)%N).
    { cbn [app]. unfold dhead. change (u8v xfb) with 251%N.
      change (251 / 32)%N with 7%N. change (251 mod 32)%N with 27%N.
      change ((27 <? 24)%N) with false. change ((27 =? 24)%N) with false. change ((27 =? 25)%N) with false.
      change ((27 =? 26)%N) with false. change ((27 =? 27)%N) with true. cbv iota.
      rewrite take_be_app, N.mod_small by apply uv_lt. reflexivity. }
    destruct d; cbn [cdec]; rewrite E; cbn; rewrite UU; reflexivity.
Qed.

(** Encodings are prefix-free, hence injective (no depth limit needed). *)
Lemma cenc_prefix_free a b r s :
  cwf a = true -> cwf b = true -> cenc a ++ r = cenc b ++ s -> a = b /\ r = s.
Proof.
  intros Ha Hb H.
  pose proof (cdec_cenc a (cdepth a + cdepth b) r Ha ltac:(lia)) as Da.
  pose proof (cdec_cenc b (cdepth a + cdepth b) s Hb ltac:(lia)) as Db.
  rewrite H in Da. rewrite Db in Da. injection Da. auto.
Qed.
Lemma cenc_inj a b : cwf a = true -> cwf b = true -> cenc a = cenc b -> a = b.
Proof.
  intros Ha Hb H. apply (cenc_prefix_free a b [] []); auto. rewrite !app_nil_r. exact H.
Qed.
Lemma cbor_roundtrip v : cwf v = true -> cdepth v <= max_depth -> cbor_from_slice (cenc v) = Some v.
Proof.
  intros Hw Hd. unfold cbor_from_slice.
  pose proof (cdec_cenc v max_depth [] Hw Hd) as H. rewrite app_nil_r in H. rewrite H. reflexivity.
Qed.
