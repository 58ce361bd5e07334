(** * TallyFacts: tables, stable sorting, and the totals of every contest type. *)
From Verif Require Import Base BaseFacts Utf8 Types Tally SpecTally.
From Coq Require Import Permutation ZifyBool ZifyNat ZifyN.
Open Scope list_scope.

(** ** tables *)
Section Tables.
  Context {K : Type} (eqb : K -> K -> bool) (eqb_eq : forall a b, eqb a b = true <-> a = b).
  (** the amounts listed under a key *)
  Fixpoint amount (k : K) (l : list (K * N)) : N :=
    match l with [] => 0%N | (k', n) :: l' => ((if eqb k k' then n else 0) + amount k l')%N end.
  Definition table_of (l t : list (K * N)) : Prop :=
    NoDup (map fst t) /\ forall k n, In (k, n) t <-> In k (map fst l) /\ n = amount k l.
  Lemma eqb_refl a : eqb a a = true.
  Proof. apply eqb_eq. reflexivity. Qed.
  Lemma amount_app k l l' : amount k (l ++ l') = (amount k l + amount k l')%N.
  Proof. clear eqb_eq. induction l as [|[k' n] l IH]; [reflexivity|]. cbn [app amount]. rewrite IH. lia. Qed.
  Lemma amount_none k l : ~ In k (map fst l) -> amount k l = 0%N.
  Proof.
    induction l as [|[k' n] l IH]; [reflexivity|]. cbn [map fst In amount]. intros H. destruct (eqb k k') eqn:E.
    - apply eqb_eq in E. exfalso. apply H. left. congruence.
    - rewrite IH by tauto. reflexivity.
  Qed.
  Lemma amount_one k n l : NoDup (map fst l) -> In (k, n) l -> amount k l = n.
  Proof.
    induction l as [|[k' n'] l IH]; [intros _ []|]. cbn [map fst amount]. intros ND [H|H].
    - injection H as -> ->. rewrite eqb_refl. inversion ND as [|? ? A B]; subst. rewrite amount_none by exact A. lia.
    - inversion ND as [|? ? A B]; subst. destruct (eqb k k') eqn:E.
      + apply eqb_eq in E. subst k'. exfalso. apply A. apply in_map_iff. exists (k, n). auto.
      + rewrite IH by assumption. reflexivity.
  Qed.
  Lemma add_keys k n t x : In x (map fst (add eqb k n t)) <-> x = k \/ In x (map fst t).
  Proof.
    induction t as [|[k' n'] t IH]; cbn [add]; [cbn; intuition congruence|]. destruct (eqb k k') eqn:E; cbn [map fst In].
    - apply eqb_eq in E. subst k'. intuition congruence.
    - rewrite IH. intuition congruence.
  Qed.
  Lemma add_nodup k n t : NoDup (map fst t) -> NoDup (map fst (add eqb k n t)).
  Proof.
    induction t as [|[k' n'] t IH]; cbn [add]; [intros _; cbn; constructor; [intros []|constructor]|].
    intros H. cbn [map fst] in H. inversion H as [|? ? A B]; subst. destruct (eqb k k') eqn:E; cbn [map fst].
    - exact H.
    - constructor; [|apply IH, B]. rewrite add_keys. intros [X|X]; [|exact (A X)]. subst k'. rewrite eqb_refl in E. discriminate.
  Qed.
  Lemma add_amount k n t x : amount x (add eqb k n t) = (amount x t + (if eqb x k then n else 0))%N.
  Proof.
    induction t as [|[k' n'] t IH]; cbn [add amount]; [lia|]. destruct (eqb k k') eqn:E; cbn [amount].
    - apply eqb_eq in E. subst k'. destruct (eqb x k); lia.
    - rewrite IH. lia.
  Qed.
  Lemma table_in t : NoDup (map fst t) -> forall k n, In (k, n) t <-> In k (map fst t) /\ n = amount k t.
  Proof.
    intros ND k n. split.
    - intros H. split; [apply in_map_iff; exists (k, n); auto|]. symmetry. apply amount_one; assumption.
    - intros [H ->]. apply in_map_iff in H as ([k' n'] & E & H). cbn in E. subst k'. rewrite (amount_one k n' t ND H). exact H.
  Qed.
  Lemma add_all_spec l : forall t, NoDup (map fst t) ->
    NoDup (map fst (add_all eqb l t))
    /\ (forall x, In x (map fst (add_all eqb l t)) <-> In x (map fst t) \/ In x (map fst l))
    /\ (forall x, amount x (add_all eqb l t) = (amount x t + amount x l)%N).
  Proof.
    induction l as [|[k n] l IH]; intros t ND; cbn [add_all fold_left fst snd].
    - cbn. repeat split; auto; try tauto. intros x. lia.
    - destruct (IH (add eqb k n t) (add_nodup k n t ND)) as (A & B & D). unfold add_all in *. split; [exact A|]. split.
      + intros x. rewrite B, add_keys. cbn [map fst In]. intuition congruence.
      + intros x. rewrite D, add_amount. cbn [amount]. lia.
  Qed.
  Lemma add_all_table l : table_of l (add_all eqb l []).
  Proof.
    destruct (add_all_spec l [] (NoDup_nil _)) as (A & B & D). split; [exact A|]. intros k n.
    rewrite (table_in _ A), B, D. cbn. split; [intros [[[]|H] E]; auto|intros [H E]; auto].
  Qed.
  Lemma add_all_app l l' t : add_all eqb (l ++ l') t = add_all eqb l' (add_all eqb l t).
  Proof. apply fold_left_app. Qed.
  Lemma add_votes {A} (f : A -> list (K * N)) votes : forall t,
    fold_left (fun t v => add_all eqb (f v) t) votes t = add_all eqb (flat_map f votes) t.
  Proof.
    induction votes as [|v votes IH]; intros t; [reflexivity|]. cbn [fold_left flat_map]. rewrite IH, add_all_app. reflexivity.
  Qed.
  Lemma iput_fresh k n t : ~ In k (map fst t) -> iput eqb k n t = t ++ [(k, n)].
  Proof.
    induction t as [|[k' n'] t IH]; [reflexivity|]. cbn [map fst In iput app]. intros H. destruct (eqb k k') eqn:E.
    - apply eqb_eq in E. exfalso. apply H. left. congruence.
    - rewrite IH by tauto. reflexivity.
  Qed.
  Lemma iput_all_id l : NoDup (map fst l) -> iput_all eqb l = l.
  Proof.
    unfold iput_all. assert (G : forall l t, NoDup (map fst (t ++ l)) -> fold_left (fun t p => iput eqb (fst p) (snd p) t) l t = t ++ l).
    { clear l. induction l as [|[k n] l IH]; intros t ND; cbn [fold_left fst snd]; [symmetry; apply app_nil_r|].
      rewrite iput_fresh.
      - rewrite IH; rewrite <- app_assoc; [reflexivity|exact ND].
      - rewrite map_app in ND. apply NoDup_remove_2 in ND. cbn [map fst] in ND. intros H. apply ND, in_or_app. left. exact H. }
    intros ND. apply (G l []). exact ND.
  Qed.
  Lemma table_perm l t t' : table_of l t -> Permutation t' t -> table_of l t'.
  Proof.
    intros [A B] P. split.
    - eapply Permutation_NoDup; [apply Permutation_map, Permutation_sym, P|exact A].
    - intros k n. rewrite <- B. split; apply Permutation_in; [exact P|apply Permutation_sym, P].
  Qed.
  Lemma repeats_iff l : repeats eqb l = false <-> NoDup l.
  Proof.
    induction l as [|k l IH]; cbn [repeats]; [split; [intros; constructor|reflexivity]|]. rewrite orb_false_iff, IH. split.
    - intros [A B]. constructor; [|exact B]. intros H. assert (existsb (eqb k) l = true); [|congruence]. apply existsb_exists. exists k. split; [exact H|apply eqb_refl].
    - intros H. inversion H as [|? ? A B]; subst. split; [|exact B]. destruct (existsb (eqb k) l) eqn:E; [|reflexivity].
      apply existsb_exists in E as (x & Hx & E). apply eqb_eq in E. subst x. contradiction.
  Qed.
  Lemma different_spec l : exists l', NoDup l' /\ (forall x, In x l' <-> In x l) /\ different eqb l = length l'.
  Proof.
    induction l as [|k l (l' & A & B & D)]; [exists []; split; [constructor|split; [reflexivity|reflexivity]]|]. cbn [different].
    destruct (existsb (eqb k) l) eqn:E.
    - exists l'. split; [exact A|]. split; [|exact D]. intros x. rewrite B. cbn [In]. split; [auto|]. intros [->|H]; [|exact H].
      apply existsb_exists in E as (y & Hy & E). apply eqb_eq in E. subst y. exact Hy.
    - exists (k :: l'). split; [constructor; [|exact A]|split].
      + rewrite B. intros H. assert (existsb (eqb k) l = true); [|congruence]. apply existsb_exists. exists k. split; [exact H|apply eqb_refl].
      + intros x. cbn [In]. rewrite B. reflexivity.
      + cbn. rewrite D. reflexivity.
  Qed.
End Tables.

Lemma no_repeat_iff v : repeats bytes_eqb (map text v) = false <-> no_repeat v.
Proof. apply repeats_iff, bytes_eqb_eq. Qed.
Lemma checked_ok {K} (eqb : K -> K -> bool) f votes : forall t,
  Forall no_repeat votes -> checked eqb f votes t = Ok (add_all eqb (flat_map f votes) t).
Proof.
  induction votes as [|v votes IH]; intros t F; [reflexivity|]. inversion F as [|? ? A B]; subst. cbn [checked flat_map].
  rewrite (proj2 (no_repeat_iff v) A), IH by exact B. rewrite add_all_app. reflexivity.
Qed.
Lemma checked_panics {K} (eqb : K -> K -> bool) f votes : forall t,
  ~ Forall no_repeat votes -> checked eqb f votes t = Panic PExpect.
Proof.
  induction votes as [|v votes IH]; intros t F; [exfalso; apply F; constructor|]. cbn [checked].
  destruct (repeats bytes_eqb (map text v)) eqn:E; [reflexivity|]. apply IH. intros G. apply F. constructor; [|exact G].
  apply no_repeat_iff, E.
Qed.
Lemma repeat_dec votes : Forall no_repeat votes \/ ~ Forall no_repeat votes.
Proof.
  induction votes as [|v votes [IH|IH]]; [left; constructor| |right; intros F; apply IH; inversion F; assumption].
  destruct (repeats bytes_eqb (map text v)) eqn:E.
  - right. intros F. inversion F as [|? ? A B]; subst. apply no_repeat_iff in A. congruence.
  - left. constructor; [apply no_repeat_iff, E|exact IH].
Qed.

(** ** the stable sort *)
Lemma insert_perm x l : Permutation (insert x l) (x :: l).
Proof.
  induction l as [|y l IH]; [reflexivity|]. cbn [insert]. destruct (score x <? score y)%N; [reflexivity|].
  rewrite IH. apply perm_swap.
Qed.
Lemma sort_from l : forall acc, Permutation (fold_left (fun acc x => insert x acc) l acc) (acc ++ l).
Proof.
  induction l as [|x l IH]; intros acc; cbn [fold_left]; [rewrite app_nil_r; reflexivity|]. rewrite IH, insert_perm.
  cbn [app]. apply Permutation_middle.
Qed.
Lemma sort_perm l : Permutation (sort l) l.
Proof. apply (sort_from l []). Qed.
Lemma sort_length l : length (sort l) = length l.
Proof. apply Permutation_length, sort_perm. Qed.
Lemma named_sort v c : named (sort v) c <-> named v c.
Proof.
  split; intros (s & H & E); exists s; (split; [|exact E]); eapply Permutation_in; [apply sort_perm|exact H|apply Permutation_sym, sort_perm|exact H].
Qed.
Lemma no_repeat_sort v : no_repeat (sort v) <-> no_repeat v.
Proof. unfold no_repeat. split; apply Permutation_NoDup; apply Permutation_map; [|apply Permutation_sym]; apply sort_perm. Qed.
Lemma no_repeat_sorts votes : Forall no_repeat (map sort votes) <-> Forall no_repeat votes.
Proof.
  rewrite Forall_map. split; apply Forall_impl; intros v; apply no_repeat_sort.
Qed.
Definition sorted_l (l : list Selection) : Prop :=
  forall p a q, l = p ++ a :: q -> Forall (fun b => (score b <= score a)%N) p.
Lemma insert_before x l1 s l2 : (score x < score s)%N ->
  exists l1', insert x (l1 ++ s :: l2) = l1' ++ s :: l2 /\ Permutation l1' (x :: l1).
Proof.
  intros H. induction l1 as [|y l1 (l1' & E & P)]; cbn [app insert].
  - rewrite (proj2 (N.ltb_lt _ _) H). exists [x]. split; reflexivity.
  - destruct (score x <? score y)%N.
    + exists (x :: y :: l1). split; reflexivity.
    + rewrite E. exists (y :: l1'). split; [reflexivity|]. rewrite P. apply perm_swap.
Qed.
Lemma insert_after x l1 s l2 : Forall (fun y => (score y <= score s)%N) l1 -> (score s <= score x)%N ->
  insert x (l1 ++ s :: l2) = l1 ++ s :: insert x l2.
Proof.
  intros F H. induction l1 as [|y l1 IH]; cbn [app insert].
  - rewrite (proj2 (N.ltb_ge _ _) H). reflexivity.
  - inversion F as [|? ? A B]; subst. rewrite (proj2 (N.ltb_ge _ _)) by lia. rewrite IH by exact B. reflexivity.
Qed.
(** inserting into a sorted list splits it *)
Lemma insert_split x l : sorted_l l ->
  exists l1 l2, insert x l = l1 ++ x :: l2 /\ l = l1 ++ l2
    /\ Forall (fun y => (score y <= score x)%N) l1 /\ Forall (fun y => (score x < score y)%N) l2.
Proof.
  induction l as [|y l IH]; intros S; cbn [insert].
  - exists [], []. repeat split; constructor.
  - destruct (score x <? score y)%N eqn:E.
    + apply N.ltb_lt in E. exists [], (y :: l). repeat split; [constructor|]. constructor; [exact E|].
      apply Forall_forall. intros z Hz. apply in_split in Hz as (a & b & ->).
      specialize (S (y :: a) z b eq_refl). inversion S; subst. lia.
    + apply N.ltb_ge in E. destruct IH as (l1 & l2 & A & B & D & F).
      { intros p a q Q. specialize (S (y :: p) a q). rewrite Q in S. specialize (S eq_refl). inversion S; assumption. }
      exists (y :: l1), l2. rewrite A, B. repeat split; [constructor; assumption|exact F].
Qed.
Lemma insert_sorted x l : sorted_l l -> sorted_l (insert x l).
Proof.
  intros S. destruct (insert_split x l S) as (l1 & l2 & -> & -> & A & B). intros p a q E.
  apply Forall_forall. intros b Hb. apply in_split in Hb as (p1 & p2 & ->).
  rewrite <- app_assoc in E. cbn [app] in E.
  (* positions: b before a in l1 ++ x :: l2 *)
  revert S A. revert E. revert p1. induction l1 as [|y l1 IH]; intros p1 E S A.
  - cbn [app] in E. destruct p1 as [|z p1]; cbn [app] in E; injection E as <- E.
    + assert (Ha : In a l2) by (rewrite E; apply in_or_app; right; left; reflexivity).
      rewrite Forall_forall in B. apply N.lt_le_incl, B, Ha.
    + specialize (S (p1 ++ b :: p2) a q). cbn [app] in S. rewrite <- app_assoc in S. cbn [app] in S. specialize (S E).
      rewrite Forall_forall in S. apply S. apply in_or_app. right. left. reflexivity.
  - cbn [app] in E. destruct p1 as [|z p1]; cbn [app] in E; injection E as <- E.
    + assert (Ha : In a (l1 ++ x :: l2)) by (rewrite E; apply in_or_app; right; left; reflexivity).
      apply in_app_or in Ha as [Ha|[<-|Ha]].
      * apply in_split in Ha as (u & w & ->). specialize (S (y :: u) a (w ++ l2)). cbn [app] in S.
        rewrite <- app_assoc in S. specialize (S eq_refl). inversion S; assumption.
      * inversion A; assumption.
      * apply in_split in Ha as (u & w & ->). specialize (S (y :: l1 ++ u) a w). cbn [app] in S.
        rewrite <- app_assoc in S. specialize (S eq_refl). inversion S; assumption.
    + apply (IH p1 E); [|inversion A; assumption].
      intros p' a' q' Q. specialize (S (y :: p') a' q'). cbn [app] in S. rewrite Q in S. specialize (S eq_refl). inversion S; assumption.
Qed.
Lemma sort_sorted_from l : forall acc, sorted_l acc -> sorted_l (fold_left (fun acc x => insert x acc) l acc).
Proof. induction l as [|x l IH]; intros acc S; [exact S|]. cbn [fold_left]. apply IH, insert_sorted, S. Qed.
Lemma sort_sorted l : sorted_l (sort l).
Proof. apply sort_sorted_from. intros p a q E. destruct p; discriminate E. Qed.

Lemma count_app f l l' : count f (l ++ l') = count f l + count f l'.
Proof. unfold count. rewrite filter_app, app_length. reflexivity. Qed.
Lemma count_perm f l l' : Permutation l l' -> count f l = count f l'.
Proof.
  unfold count. induction 1 as [|x l l' P IH|x y l|l l' l'' P IH P' IH']; cbn [filter]; [reflexivity| | |congruence].
  - destruct (f x); cbn; congruence.
  - destruct (f x), (f y); reflexivity.
Qed.
Lemma count_all f l : Forall (fun x => f x = true) l -> count f l = length l.
Proof. unfold count. induction 1 as [|x l A _ IH]; [reflexivity|]. cbn [filter]. rewrite A. cbn. congruence. Qed.
Lemma count_none f l : Forall (fun x => f x = false) l -> count f l = 0.
Proof. unfold count. induction 1 as [|x l A _ IH]; [reflexivity|]. cbn [filter]. rewrite A. exact IH. Qed.

Lemma sort_after q : forall l1 s l2, Forall (fun y => (score y <= score s)%N) l1 ->
  exists l1' l2', fold_left (fun acc x => insert x acc) q (l1 ++ s :: l2) = l1' ++ s :: l2'
    /\ length l1' = length l1 + count (fun x => score x <? score s)%N q.
Proof.
  induction q as [|x q IH]; intros l1 s l2 F; cbn [fold_left].
  - exists l1, l2. unfold count. cbn. split; [reflexivity|lia].
  - destruct (score x <? score s)%N eqn:E.
    + apply N.ltb_lt in E. destruct (insert_before x l1 s l2 E) as (l1' & -> & P).
      destruct (IH l1' s l2) as (a & b & -> & L).
      { eapply Permutation_Forall; [apply Permutation_sym, P|]. constructor; [lia|exact F]. }
      exists a, b. split; [reflexivity|]. rewrite L, (Permutation_length P). unfold count. cbn [filter length].
      rewrite (proj2 (N.ltb_lt _ _) E). cbn. lia.
    + apply N.ltb_ge in E. rewrite insert_after by assumption. destruct (IH l1 s (insert x l2) F) as (a & b & -> & L).
      exists a, b. split; [reflexivity|]. rewrite L. unfold count. cbn [filter]. rewrite (proj2 (N.ltb_ge _ _) E). reflexivity.
Qed.
Lemma sort_place p s q : exists l1 l2, sort (p ++ s :: q) = l1 ++ s :: l2
  /\ length l1 = count (fun x => score x <=? score s)%N p + count (fun x => score x <? score s)%N q.
Proof.
  unfold sort. rewrite fold_left_app. cbn [fold_left]. fold (sort p).
  destruct (insert_split s (sort p) (sort_sorted p)) as (l1 & l2 & -> & E & A & B).
  destruct (sort_after q l1 s l2 A) as (a & b & -> & L). exists a, b. split; [reflexivity|]. rewrite L. f_equal.
  rewrite <- (count_perm _ _ _ (sort_perm p)), E, count_app.
  rewrite (count_all _ l1), (count_none _ l2); [lia| |].
  - eapply Forall_impl; [|exact B]. intros y Hy. apply N.leb_gt. exact Hy.
  - eapply Forall_impl; [|exact A]. intros y Hy. apply N.leb_le. exact Hy.
Qed.

(** ** totals *)
Lemma amount_flat {K} (eqb : K -> K -> bool) f votes k :
  amount eqb k (flat_map f votes) = fold_right N.add 0%N (map (fun v : list Selection => amount eqb k (f v)) votes).
Proof. induction votes as [|v votes IH]; [reflexivity|]. cbn [flat_map map fold_right]. rewrite amount_app, IH. reflexivity. Qed.
Lemma total_iff {K} (worth : list Selection -> K -> N -> Prop) g votes k n :
  (forall v m, In v votes -> worth v k m <-> m = g v) ->
  total_by worth votes k n <-> n = fold_right N.add 0%N (map g votes).
Proof.
  intros H. unfold total_by. split.
  - intros (ns & F & ->). f_equal. induction F as [|v m votes ns A F IH]; [reflexivity|]. cbn [map]. f_equal.
    + apply H; [left; reflexivity|exact A].
    + apply IH. intros v' m' Hv. apply H. right. exact Hv.
  - intros ->. exists (map g votes). split; [|reflexivity]. induction votes as [|v votes IH]; constructor.
    + apply H; [left|]; reflexivity.
    + apply IH. intros v' m' Hv. apply H. right. exact Hv.
Qed.
Lemma amount_perm {K} (eqb : K -> K -> bool) k l l' : Permutation l l' -> amount eqb k l = amount eqb k l'.
Proof.
  induction 1 as [|[a n] l l' P IH|[a n] [b m] l|l l' l'' P IH P' IH']; cbn [amount]; try congruence; lia.
Qed.
Lemma times_iff amt v c n : times amt v c n <-> n = amount bytes_eqb c (map (fun s => (text s, amt s)) v).
Proof.
  split.
  - induction 1 as [c|s v c n E T IH|s v c n E T IH]; cbn [map amount]; [reflexivity| |].
    + subst c. rewrite bytes_eqb_refl, IH. reflexivity.
    + destruct (bytes_eqb c (text s)) eqn:B; [apply bytes_eqb_eq in B; congruence|]. rewrite IH. reflexivity.
  - intros ->. induction v as [|s v IH]; cbn [map amount]; [constructor|].
    destruct (bytes_eqb c (text s)) eqn:B.
    + apply bytes_eqb_eq in B. constructor; [congruence|exact IH].
    + rewrite N.add_0_l. apply t_miss; [|exact IH]. intros E. rewrite E, bytes_eqb_refl in B. discriminate.
Qed.
Lemma keys_flat {K} (f : list Selection -> list (K * N)) votes k :
  In k (map fst (flat_map f votes)) <-> exists v, In v votes /\ In k (map fst (f v)).
Proof.
  split.
  - intros H. apply in_map_iff in H as (p & <- & H). apply in_flat_map in H as (v & Hv & H). exists v. split; [exact Hv|].
    apply in_map, H.
  - intros (v & Hv & H). apply in_map_iff in H as (p & <- & H). apply in_map. apply in_flat_map. eauto.
Qed.
Lemma text_keys (amt : Selection -> N) v c : In c (map fst (map (fun s => (text s, amt s)) v)) <-> named v c.
Proof.
  rewrite map_map. cbn [fst]. rewrite in_map_iff. unfold named. split; intros (s & A & B); exists s; auto.
Qed.
Lemma flat_map_map {A B D} (f : B -> list D) (g : A -> B) l : flat_map f (map g l) = flat_map (fun x => f (g x)) l.
Proof. induction l as [|a l IH]; [reflexivity|]. cbn [map flat_map]. rewrite IH. reflexivity. Qed.

Section Order.
  Context (order : forall K, list (K * N) -> list (K * N)) (F : fair order).

  (** a table whose contributions are worth what the specification says is what is reported *)
  Lemma reports_table worth f votes t :
    table_of bytes_eqb (flat_map f votes) t ->
    (forall v c, In v votes -> In c (map fst (f v)) <-> named v c) ->
    (forall v c m, In v votes -> worth v c m <-> m = amount bytes_eqb c (f v)) ->
    reports worth votes t.
  Proof.
    intros [A B] Kf W. split; [exact A|]. intros c n. rewrite B, keys_flat, amount_flat, (total_iff worth (fun v => amount bytes_eqb c (f v))).
    2:{ intros v m Hv. apply W, Hv. }
    assert (Eq : (exists v, In v votes /\ In c (map fst (f v))) <-> exists v, In v votes /\ named v c).
    { split; intros (v & Hv & X); exists v; (split; [exact Hv|]); apply Kf; assumption. }
    rewrite Eq. reflexivity.
  Qed.
  Lemma plain_reports amt votes :
    reports (times amt) votes (count_plain order (fun v => map (fun s => (text s, amt s)) v) (map sort votes)).
  Proof.
    unfold count_plain. rewrite add_votes, flat_map_map.
    set (f := fun v => map (fun s => (text s, amt s)) (sort v)).
    pose proof (add_all_table bytes_eqb bytes_eqb_eq (flat_map f votes)) as T.
    pose proof (table_perm _ _ _ _ T (F _ _)) as T'. rewrite iput_all_id; [|apply bytes_eqb_eq|apply T'].
    apply reports_table with (f := f); [exact T'| |].
    - intros v c _. unfold f. rewrite text_keys. apply named_sort.
    - intros v c m _. rewrite times_iff. unfold f. rewrite (amount_perm _ c _ _ (Permutation_map _ (sort_perm v))). reflexivity.
  Qed.

  (** *** positions *)
  Lemma by_position_app points l : forall i l', by_position points i (l ++ l') =
    by_position points i l ++ by_position points (i + N.of_nat (length l))%N l'.
  Proof.
    induction l as [|s l IH]; intros i l'; cbn [app by_position length].
    - rewrite N.add_0_r. reflexivity.
    - rewrite IH. f_equal. f_equal. f_equal. lia.
  Qed.
  Lemma by_position_keys points l : forall i, map fst (by_position points i l) = map text l.
  Proof. induction l as [|s l IH]; intros i; [reflexivity|]. cbn [by_position map fst]. rewrite IH. reflexivity. Qed.
  Lemma position_named points i v c : In c (map fst (by_position points i v)) <-> named v c.
  Proof.
    rewrite by_position_keys, in_map_iff. unfold named. split; intros (s & A & B); exists s; auto.
  Qed.
  Lemma position_amount points p s q : no_repeat (p ++ s :: q) ->
    amount bytes_eqb (text s) (by_position points 0 (sort (p ++ s :: q)))
    = points (N.of_nat (count (fun x => score x <=? score s)%N p + count (fun x => score x <? score s)%N q)).
  Proof.
    intros ND. destruct (sort_place p s q) as (l1 & l2 & E & L). rewrite <- L.
    assert (ND' : no_repeat (sort (p ++ s :: q))) by (apply no_repeat_sort, ND). rewrite E in ND' |- *.
    apply amount_one; [apply bytes_eqb_eq|rewrite by_position_keys; exact ND'|].
    rewrite by_position_app. apply in_or_app. right. left. f_equal. 
  Qed.
  Lemma ranked_iff points v c m : no_repeat v ->
    ranked_worth points v c m <-> m = amount bytes_eqb c (by_position (points (length v)) 0 (sort v)).
  Proof.
    intros ND. assert (Dec : named v c \/ ~ named v c).
    { destruct (in_dec (list_eq_dec Byte.byte_eq_dec) c (map text v)) as [H|H]; rewrite in_map_iff in H.
      - left. destruct H as (s & A & B). exists s. auto.
      - right. intros (s & A & B). apply H. exists s. auto. }
    destruct Dec as [(s & Hs & Tc)|N].
    - subst c. apply in_split in Hs as (p & q & ->). rewrite position_amount by exact ND. split.
      + intros [[X _]|(i & (p' & s' & q' & E & T & ->) & ->)].
        * exfalso. apply X. exists s. split; [apply in_or_app; right; left|]; reflexivity.
        * assert (Q : p ++ s :: q = p' ++ s' :: q') by exact E. unfold no_repeat in ND.
          assert (p = p' /\ s = s' /\ q = q') as (-> & -> & ->); [|reflexivity].
          clear E. revert p' Q ND. induction p as [|x p IH]; intros [|x' p'] Q ND; cbn [app map] in *.
          -- injection Q as -> ->. auto.
          -- injection Q as -> ->. exfalso. inversion ND as [|? ? A _]; subst. apply A. rewrite <- T, map_app. apply in_or_app. right. left. reflexivity.
          -- injection Q as <- <-. exfalso. inversion ND as [|? ? A _]; subst. apply A. rewrite T, map_app. apply in_or_app. right. left. reflexivity.
          -- injection Q as <- Q. inversion ND as [|? ? _ B]; subst. destruct (IH p' Q B) as (-> & -> & ->). auto.
      + intros ->. right. eexists. split; [|reflexivity]. exists p, s, q. auto.
    - rewrite amount_none.
      + split; [intros [[_ X]|(i & (p & s & q & -> & T & _) & _)]; [exact X|]|intros ->; left; auto].
        exfalso. apply N. exists s. split; [apply in_or_app; right; left; reflexivity|exact T].
      + apply bytes_eqb_eq.
      + rewrite position_named, named_sort. exact N.
  Qed.
  Lemma candidates_count votes : candidates votes (different bytes_eqb (map text (concat (map sort votes)))).
  Proof.
    destruct (different_spec bytes_eqb bytes_eqb_eq (map text (concat (map sort votes)))) as (l & A & B & D).
    exists l. split; [exact A|]. split; [|exact D]. intros c. rewrite B, in_map_iff. split.
    - intros (s & E & H). apply in_concat in H as (w & Hw & H). apply in_map_iff in Hw as (v & <- & Hv). exists v.
      split; [exact Hv|]. apply named_sort. exists s. auto.
    - intros (v & Hv & H). apply named_sort in H as (s & H & E). exists s. split; [exact E|]. apply in_concat.
      exists (sort v). split; [apply in_map, Hv|exact H].
  Qed.
  Lemma candidates_unique votes n n' : candidates votes n -> candidates votes n' -> n = n'.
  Proof.
    intros (l & A & B & ->) (l' & A' & B' & ->). apply Permutation_length. apply NoDup_Permutation; [assumption..|].
    intros c. rewrite B, B'. reflexivity.
  Qed.
  Lemma borda_reports points votes n t : Forall no_repeat votes -> candidates votes n ->
    count_borda order points (map sort votes) = Ok t ->
    reports (ranked_worth (fun m i => points (N.of_nat n) (N.of_nat m) i)) votes t.
  Proof.
    intros ND Cn H. unfold count_borda in H. rewrite <- (candidates_unique _ _ _ Cn (candidates_count votes)) in H.
    rewrite checked_ok in H by (apply no_repeat_sorts, ND). cbn [bind] in H. rewrite flat_map_map in H.
    set (f := fun v => by_position (points (N.of_nat n) (N.of_nat (length (sort v)))) 0 (sort v)) in H.
    pose proof (add_all_table bytes_eqb bytes_eqb_eq (flat_map f votes)) as T.
    pose proof (table_perm _ _ _ _ T (F _ _)) as T'. rewrite iput_all_id in H; [|apply bytes_eqb_eq|apply T']. injection H as <-.
    apply reports_table with (f := f); [exact T'| |].
    - intros v c _. unfold f. rewrite position_named. apply named_sort.
    - intros v c m Hv. rewrite Forall_forall in ND. rewrite ranked_iff by (apply ND, Hv). unfold f. rewrite sort_length. reflexivity.
  Qed.

  (** *** pairs *)
  Lemma pair_eqb_eq a b : pair_eqb a b = true <-> a = b.
  Proof.
    unfold pair_eqb. rewrite andb_true_iff, !bytes_eqb_eq. destruct a, b; cbn [fst snd]. split; [intros [-> ->]; reflexivity|intros E; injection E; auto].
  Qed.
  Lemma pairs_in v a b n : In ((a, b), n) (pairs v) <-> n = 1%N /\ prefers v a b.
  Proof.
    unfold pairs, prefers. rewrite in_flat_map. split.
    - intros (s & Hs & H). apply in_flat_map in H as (s' & Hs' & H). destruct (score s <? score s')%N eqn:E; [|destruct H].
      destruct H as [H|[]]. injection H as <- <- <-. apply N.ltb_lt in E. split; [reflexivity|]. exists s, s'. auto.
    - intros (-> & s & s' & Hs & Hs' & <- & <- & E). exists s. split; [exact Hs|]. apply in_flat_map. exists s'. split; [exact Hs'|].
      rewrite (proj2 (N.ltb_lt _ _) E). left. reflexivity.
  Qed.
  Lemma inner_row v a : no_repeat v ->
    NoDup (map fst (flat_map (fun b => if (score a <? score b)%N then [((text a, text b), 1%N)] else []) v)).
  Proof.
    unfold no_repeat. induction v as [|b v IH]; intros ND; [constructor|]. cbn [map] in ND. inversion ND as [|? ? A B]; subst.
    cbn [flat_map]. rewrite map_app. destruct (score a <? score b)%N; cbn [map fst app]; [|apply IH, B]. constructor; [|apply IH, B].
    intros H. apply in_map_iff in H as ([[x y] n] & E & H). cbn in E. injection E as -> ->. apply in_flat_map in H as (b' & Hb & H).
    destruct (score a <? score b')%N; [|destruct H]. destruct H as [H|[]]. injection H as E _. apply A. rewrite <- E. apply in_map, Hb.
  Qed.
  Lemma nodup_app {A} (l l' : list A) : NoDup l -> NoDup l' -> (forall x, In x l -> ~ In x l') -> NoDup (l ++ l').
  Proof.
    intros ND ND' H. induction ND as [|x l Nx Nl IH]; [exact ND'|]. cbn [app]. constructor.
    - intros X. apply in_app_or in X as [X|X]; [exact (Nx X)|]. exact (H x (or_introl eq_refl) X).
    - apply IH. intros y Hy. apply H. right. exact Hy.
  Qed.
  Lemma pairs_nodup v : no_repeat v -> NoDup (map fst (pairs v)).
  Proof.
    intros ND. unfold pairs. assert (G : forall w, NoDup (map text w) -> NoDup (map fst (flat_map (fun a => flat_map (fun b => if (score a <? score b)%N then [((text a, text b), 1%N)] else []) v) w))).
    { induction w as [|a w IH]; intros NW; [constructor|]. cbn [map] in NW. inversion NW as [|? ? A B]; subst. cbn [flat_map]. rewrite map_app.
      apply nodup_app; [apply inner_row, ND|apply IH, B|].
      intros [x y] H X. apply in_map_iff in H as ([[x1 y1] n1] & E1 & H). apply in_map_iff in X as ([[x2 y2] n2] & E2 & X).
      cbn in E1, E2. injection E1 as -> ->. injection E2 as -> ->.
      apply in_flat_map in H as (b & _ & H). destruct (score a <? score b)%N; [|destruct H]. destruct H as [H|[]]. injection H as <- _ _.
      apply in_flat_map in X as (a' & Ha & X). apply in_flat_map in X as (b' & _ & X). destruct (score a' <? score b')%N; [|destruct X].
      destruct X as [X|[]]. injection X as X _ _. apply A. rewrite <- X. apply in_map, Ha. }
    apply G, ND.
  Qed.
  Lemma prefers_sort v a b : prefers (sort v) a b <-> prefers v a b.
  Proof.
    split; intros (s & s' & A & B & R); exists s, s'; (split; [|split; [|exact R]]);
      eapply Permutation_in; try eassumption; first [apply sort_perm|apply Permutation_sym, sort_perm].
  Qed.
  Lemma pair_iff v p m : no_repeat v -> pair_worth v p m <-> m = amount pair_eqb p (pairs (sort v)).
  Proof.
    intros ND. destruct p as [a b].
    assert (Dec : prefers v a b \/ ~ prefers v a b).
    { assert (PD : forall p q : bytes * bytes, {p = q} + {p <> q}).
      { intros p q. destruct (pair_eqb p q) eqn:E; [left; apply pair_eqb_eq, E|right]. intros X. apply pair_eqb_eq in X. congruence. }
      destruct (in_dec PD (a, b) (map fst (pairs v))) as [H|H].
      - left. apply in_map_iff in H as ([[x y] n] & E & H). cbn in E. injection E as -> ->. apply pairs_in in H. apply H.
      - right. intros P. apply H. apply in_map_iff. exists ((a, b), 1%N). split; [reflexivity|]. apply pairs_in. auto. }
    unfold pair_worth. cbn [fst snd]. destruct Dec as [P|P].
    - rewrite (amount_one pair_eqb pair_eqb_eq (a, b) 1%N).
      + intuition.
      + apply pairs_nodup, no_repeat_sort, ND.
      + apply pairs_in. split; [reflexivity|]. apply prefers_sort, P.
    - rewrite amount_none.
      + intuition.
      + apply pair_eqb_eq.
      + intros H. apply in_map_iff in H as ([[x y] n] & E & H). cbn in E. injection E as -> ->. apply pairs_in in H as [_ H]. apply P, prefers_sort, H.
  Qed.
  (** names without the separator make different labels *)
  Lemma label_inj a b a' b' : plain_name a -> plain_name a' -> label (a, b) = label (a', b') -> (a, b) = (a', b').
  Proof.
    unfold label, arrow, plain_name. cbn [fst snd app]. revert a'. induction a as [|x a IH]; intros [|x' a'] N N' E; cbn [app] in E.
    - injection E as ->. reflexivity.
    - injection E as <- E. destruct a' as [|y a']; cbn [app] in E.
      + discriminate E.
      + injection E as <- E. exfalso. apply N'. right. left. reflexivity.
    - injection E as -> E. destruct a as [|y a]; cbn [app] in E.
      + discriminate E.
      + injection E as -> E. exfalso. apply N. right. left. reflexivity.
    - injection E as <- E. assert (X : (a, b) = (a', b')); [|congruence]. apply IH; [..|exact E]; intros H; [apply N|apply N']; right; exact H.
  Qed.
  Lemma pairs_reports votes t : Forall no_repeat votes -> (forall v c, In v votes -> named v c -> plain_name c) ->
    count_pairs order (map sort votes) = Ok t ->
    NoDup (map fst t)
    /\ forall k n, In (k, n) t <-> exists a b, k = label (a, b) /\ (exists v, In v votes /\ prefers v a b) /\ total_by pair_worth votes (a, b) n.
  Proof.
    intros ND PN H. unfold count_pairs in H. rewrite checked_ok in H by (apply no_repeat_sorts, ND). cbn [bind] in H. rewrite flat_map_map in H.
    set (f := fun v => pairs (sort v)) in H.
    pose proof (add_all_table pair_eqb pair_eqb_eq (flat_map f votes)) as T.
    pose proof (table_perm _ _ _ _ T (F _ _)) as [A B].
    set (t0 := order (bytes * bytes) (add_all pair_eqb (flat_map f votes) [])) in *. clearbody t0. clear T.
    assert (Keys : forall a b, In (a, b) (map fst t0) <-> exists v, In v votes /\ prefers v a b).
    { intros a b. split.
      - intros X. apply in_map_iff in X as ([p n] & E & X). cbn in E. subst p. apply B in X as [X _]. apply keys_flat in X as (v & Hv & X).
        apply in_map_iff in X as ([p m] & E & X). cbn in E. subst p. apply pairs_in in X as [_ X]. exists v. split; [exact Hv|apply prefers_sort, X].
      - intros (v & Hv & P). apply in_map_iff. exists ((a, b), amount pair_eqb (a, b) (flat_map f votes)). split; [reflexivity|].
        apply B. split; [|reflexivity]. apply keys_flat. exists v. split; [exact Hv|]. apply in_map_iff. exists ((a, b), 1%N). split; [reflexivity|].
        apply pairs_in. split; [reflexivity|]. apply prefers_sort, P. }
    assert (Pl : forall a b, In (a, b) (map fst t0) -> plain_name a).
    { intros a b X. apply Keys in X as (v & Hv & s & s' & Hs & _ & E & _). eapply PN; [exact Hv|]. exists s. auto. }
    assert (NL : NoDup (map fst (map (fun p : bytes * bytes * N => (label (fst p), snd p)) t0))).
    { rewrite map_map. cbn [fst]. clear -A Pl. induction t0 as [|[[a b] n] t0 IH]; [constructor|]. cbn [map fst] in *.
      inversion A as [|? ? A1 A2]; subst. constructor; [|apply IH; [exact A2|intros a' b' X; eapply Pl; right; exact X]].
      intros X. apply in_map_iff in X as ([[a' b'] n'] & E & X). cbn [fst] in E. apply A1. apply in_map_iff. exists ((a', b'), n'). split; [|exact X].
      cbn [fst]. apply label_inj; [..|exact E].
      - eapply Pl. right. apply in_map_iff. exists ((a', b'), n'). split; [reflexivity|exact X].
      - eapply Pl. left. reflexivity. }
    rewrite iput_all_id in H by (apply bytes_eqb_eq || exact NL). injection H as <-. split; [exact NL|].
    assert (Am : forall a b n, total_by pair_worth votes (a, b) n <-> n = amount pair_eqb (a, b) (flat_map f votes)).
    { intros a b n. rewrite amount_flat. apply total_iff. intros v m Hv. rewrite Forall_forall in ND. apply pair_iff, ND, Hv. }
    intros k n. split.
    - intros X. apply in_map_iff in X as ([[a b] n'] & E & X). cbn [fst snd] in E. injection E as <- <-.
      exists a, b. split; [reflexivity|]. split.
      + apply Keys. apply in_map_iff. exists ((a, b), n'). auto.
      + apply Am. apply B in X. apply X.
    - intros (a & b & -> & P & Tt). apply in_map_iff. exists ((a, b), n). split; [reflexivity|]. apply B. apply Am in Tt. split; [|exact Tt].
      apply Keys in P. apply in_map_iff in P as ([p m] & E & P). cbn in E. subst p. apply B in P. apply P.
  Qed.
End Order.
