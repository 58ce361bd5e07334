(** * MapFacts: insertion-ordered maps. *)
From Verif Require Import Base BaseFacts Utf8 Value Types.
Open Scope list_scope.

Lemma rs_eqb_eq a b : rs_eqb a b = true <-> a = b.
Proof.
  unfold rs_eqb. rewrite bytes_eqb_eq. split; [apply sub_ext|congruence].
Qed.
Lemma rs_eqb_refl a : rs_eqb a a = true.
Proof. apply rs_eqb_eq. reflexivity. Qed.

Lemma mem_key_app {K} (eqb : K -> K -> bool) k l m :
  mem_key eqb k (l ++ m) = mem_key eqb k l || mem_key eqb k m.
Proof. induction l as [|x l IH]; [reflexivity|]. cbn. rewrite IH, orb_assoc. reflexivity. Qed.

Lemma iput_fresh {K V} (eqb : K -> K -> bool) (l : list (K * V)) k v :
  mem_key eqb k (map fst l) = false -> iput eqb l k v = l ++ [(k, v)].
Proof.
  induction l as [|[x w] l IH]; [reflexivity|]. cbn [map fst mem_key iput app].
  intros H. apply orb_false_iff in H as [H1 H2]. rewrite H1, IH by exact H2. reflexivity.
Qed.
Lemma ibuild_nodup {K V} (eqb : K -> K -> bool) (l : list (K * V)) :
  (forall a b, eqb a b = true <-> a = b) -> nodup_keys eqb l = true -> ibuild eqb l = l.
Proof.
  intros E H. unfold ibuild.
  assert (G : forall l acc : list (K * V),
     nodup_keys eqb l = true ->
     (forall k, mem_key eqb k (map fst l) = true -> mem_key eqb k (map fst acc) = false) ->
     fold_left (fun m '(k, v) => iput eqb m k v) l acc = acc ++ l).
  { clear l H. induction l as [|[k v] l IH]; intros acc Hn Hd; cbn [fold_left].
    - rewrite app_nil_r. reflexivity.
    - cbn [nodup_keys] in Hn. apply andb_true_iff in Hn as [Hn1 Hn2]. apply negb_true_iff in Hn1.
      assert (R : eqb k k = true) by (apply E; reflexivity).
      rewrite iput_fresh by (apply Hd; cbn; rewrite R; reflexivity).
      rewrite IH; [rewrite <- app_assoc; reflexivity|exact Hn2|].
      intros x Hx. rewrite map_app, mem_key_app. rewrite Hd by (cbn; rewrite Hx; apply orb_true_r).
      cbn. rewrite orb_false_r. destruct (eqb x k) eqn:Q; [|reflexivity].
      apply E in Q. subst x. congruence. }
  rewrite G; [reflexivity|exact H|reflexivity].
Qed.
Lemma iput_len {K V} (eqb : K -> K -> bool) (l : list (K * V)) k v : length (iput eqb l k v) <= S (length l).
Proof. induction l as [|[x w] l IH]; cbn [iput length]; [lia|]. destruct (eqb k x); cbn [length]; lia. Qed.
Lemma iput_in {K V} (eqb : K -> K -> bool) (l : list (K * V)) k v P Q :
  (forall p, In p l -> P (fst p) /\ Q (snd p)) -> P k -> Q v -> forall p, In p (iput eqb l k v) -> P (fst p) /\ Q (snd p).
Proof.
  intros H Hk Hv. induction l as [|[x w] l IH]; cbn [iput].
  - intros p [<-|[]]. auto.
  - destruct (eqb k x).
    + intros p [<-|I]; [cbn [fst snd]; split; [apply (H (x, w)); left; reflexivity|exact Hv]|apply H; right; exact I].
    + intros p [<-|I]; [apply H; left; reflexivity|]. apply IH; [|exact I]. intros q Q0. apply H. right. exact Q0.
Qed.
Lemma ibuild_all {K V} (eqb : K -> K -> bool) (l : list (K * V)) P Q :
  (forall p, In p l -> P (fst p) /\ Q (snd p)) ->
  length (ibuild eqb l) <= length l /\ forall p, In p (ibuild eqb l) -> P (fst p) /\ Q (snd p).
Proof.
  intros H. unfold ibuild.
  assert (G : forall acc, (forall p, In p acc -> P (fst p) /\ Q (snd p)) ->
     length (fold_left (fun m '(k, v) => iput eqb m k v) l acc) <= length acc + length l
     /\ forall p, In p (fold_left (fun m '(k, v) => iput eqb m k v) l acc) -> P (fst p) /\ Q (snd p)).
  { induction l as [|[k v] l IH]; intros acc A; cbn [fold_left length]; [split; [lia|exact A]|].
    destruct (IH (fun p I => H p (or_intror I)) (iput eqb acc k v)) as [G1 G2].
    - apply iput_in; [exact A|apply (H (k, v)); left; reflexivity..].
    - split; [|exact G2]. pose proof (iput_len eqb acc k v). lia. }
  apply (G []). intros p [].
Qed.
Lemma Forall2_len {A B} (P : A -> B -> Prop) l l' : Forall2 P l l' -> length l = length l'.
Proof. induction 1; cbn [length]; congruence. Qed.
Lemma Forall2_in_r {A B} (P : A -> B -> Prop) l l' y : Forall2 P l l' -> In y l' -> exists x, In x l /\ P x y.
Proof.
  induction 1 as [|a b l l' H _ IH]; [intros []|]. intros [<-|I]; [exists a; split; [left|]; auto|].
  destruct (IH I) as (x & X & Y). exists x. split; [right|]; auto.
Qed.
