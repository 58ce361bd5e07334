(** * ToyT: a concrete instance of [TCrypto] over [Toy], and a simulation of nodes.
    Used only to run the model in examples and counterexamples. *)
From Verif Require Import Base BaseFacts Utf8 Cbor CborFacts Ident BuildId Crypto Types Serde Store Prost Validate ValidateFacts HistFacts
  Toy Scene Trustee Tasks.
Open Scope list_scope.
#[local] Existing Instance Toy.

Lemma toy_hash_ok m : Nat.eqb (length (toy_hash m)) 32 = true.
Proof. unfold toy_hash. rewrite app_length, be_list_length. reflexivity. Qed.
Definition toy_hash32 (m : bytes) : arr 32 := mk_arr (toy_hash m) (norm_true (toy_hash_ok m)).

Record toy_gen := mk_tg { tgs : arr 32; tgi : N; tgt : N; tgn : N; tg_cs : list (N * cval); tg_ss : list (N * arr 32) }.
Definition toy_enc (k : arr 32) (n : arr 12) (m : bytes) : bytes := m ++ toy_hash (arr_l k ++ arr_l n ++ m).
Definition toy_dec (k : arr 32) (n : arr 12) (c : bytes) : option bytes :=
  let m := firstn (length c - 32) c in if bytes_eqb c (toy_enc k n m) then Some m else None.
Definition toy_index (g : toy_gen) (i : N) : bool := (1 <=? i)%N && (i <=? tgn g)%N.

Definition ToyT : @TCrypto Toy := {|
  sk_bytes := fun k : @ed_secret Toy => @arr_l 32 k;
  hkdf := fun salt ikm info => toy_hash32 (ikm ++ salt ++ info);
  x_public := fun a => a;
  x_dh := fun a b => be_list 33 (be_val (arr_l a) + be_val (arr_l b));
  gcm_enc := toy_enc;
  gcm_dec := toy_dec;
  scalar := arr 32;
  scalar_bytes := fun a => arr_l a;
  scalar_of := arr_of 32;
  tgen := toy_gen;
  tparty := toy_gen;
  tg_new := fun seed i t n => mk_tg seed i t n [] [];
  tg_commitment := fun g => any (CUint (u_of 8 (tgi g)));
  tg_receive_commitment := fun g i c =>
    if toy_index g i then Some (mk_tg (tgs g) (tgi g) (tgt g) (tgn g) (tg_cs g ++ [(i, sv c)]) (tg_ss g)) else None;
  tg_polynomial_share := fun g i => if toy_index g i then Some (toy_hash32 (arr_l (tgs g) ++ [u8_of i])) else None;
  tg_receive_share := fun g i s =>
    if toy_index g i then Some (mk_tg (tgs g) (tgi g) (tgt g) (tgn g) (tg_cs g) (tg_ss g ++ [(i, s)])) else None;
  tg_finish := fun g => if (N.of_nat (length (tg_cs g)) =? tgn g)%N && (N.of_nat (length (tg_ss g)) =? tgn g)%N
                        then Some g else None;
  tp_pubkey := fun g => any (CArr (map snd (tg_cs g)));
  tp_proof := fun g => any (CUint (u_of 8 (tgi g)));
  tp_decrypt_share := fun g ct _ => any (toy_share (CUint (u_of 8 (tgi g))) (sv ct));
  shuffle := fun seed n ins key _ =>
    if (n =? N.of_nat (length ins))%N then Some (ins, any (CArr [CBytes seed; sv key])) else None
|}.
#[local] Existing Instance ToyT.

Lemma toy_dh_agrees : dh_agrees.
Proof. intros a b. cbn. rewrite N.add_comm. reflexivity. Qed.
Lemma toy_gcm_opens : gcm_opens.
Proof.
  intros k n m. cbn. unfold toy_dec, toy_enc.
  assert (E : firstn (length (m ++ toy_hash (arr_l k ++ arr_l n ++ m)) - 32) (m ++ toy_hash (arr_l k ++ arr_l n ++ m)) = m).
  { rewrite app_length. pose proof (toy_hash_ok (arr_l k ++ arr_l n ++ m)) as X. apply Nat.eqb_eq in X. rewrite X.
    replace (length m + 32 - 32) with (length m) by lia. rewrite firstn_app, Nat.sub_diag, firstn_all. apply app_nil_r. }
  rewrite E, bytes_eqb_refl. reflexivity.
Qed.
Lemma toy_gcm_exact : gcm_exact.
Proof.
  intros k n c m. cbn. unfold toy_dec. destruct (bytes_eqb c _) eqn:E; [|discriminate]. intros X. injection X as <-.
  apply bytes_eqb_eq, E.
Qed.
Lemma toy_scalar_faithful : scalar_faithful.
Proof. intros s. apply arr_of_arr. Qed.
Lemma toy_share_verifies : party_share_verifies.
Proof. intros p ct rnd. apply cval_eqb_eq. reflexivity. Qed.
Lemma rows_eqb_refl a : rows_eqb a a = true.
Proof. induction a; [reflexivity|]. cbn. rewrite bytes_eqb_refl. assumption. Qed.
Lemma perm_rows_refl a : perm_rows a a = true.
Proof. induction a; [reflexivity|]. cbn. rewrite rows_eqb_refl. assumption. Qed.
Lemma toy_shuffle_verifies : shuffle_verifies.
Proof.
  intros seed n ins key rnd outs proof. cbn [shuffle ToyT]. destruct (n =? _)%N eqn:E; [|discriminate].
  intros X. injection X as <- <-. split; [reflexivity|]. cbn [shuffle_verify Toy]. 
  apply andb_true_intro. split; [|apply perm_rows_refl]. apply andb_true_intro. split; [|exact E].
  apply cval_eqb_eq. reflexivity.
Qed.

Definition rnd0 : Rnd := mk_rnd (fun n => arr_rep (u8_of (N.of_nat n)) 12) (fun _ _ => []) (fun _ => []).

(** all nodes follow up one transaction; the accepted new transactions are appended *)
Definition submit_all (dbg : bool) (l new : list STx) : list STx :=
  fold_left (fun l x => if freshb l (s_id x) && is_ok (validate dbg (ms_store (ms_from l)) x) then l ++ [x] else l) new l.
Definition follow (dbg : bool) (nodes : list byte) (l : list STx) (x : STx) : list STx :=
  fold_left (fun l b => match generate_transactions dbg (key_of b) rnd0 (ms_store (ms_from l)) x with
                        | Ok new => submit_all dbg l new | _ => l end) nodes l.
(** follow up the transactions from position [k] on *)
Fixpoint nodes_run (fuel : nat) (dbg : bool) (nodes : list byte) (k : nat) (l : list STx) : list STx :=
  match fuel with
  | 0 => l
  | S fuel => match nth_error l k with Some x => nodes_run fuel dbg nodes (S k) (follow dbg nodes l x) | None => l end
  end.
Definition NODES : list byte := [x01; x0a; x0b].
(** election, key generation, votes, voting end, and what the nodes make of it *)
Definition auto_setup (el : ElectionTx) : list STx := nodes_run 20 true NODES 0 [sgn x01 (XElection el)].
Definition auto (el : ElectionTx) (votes : list STx) : list STx :=
  let l := submit_all true (auto_setup el) (votes ++ [votingend]) in
  nodes_run 40 true NODES (length l - 1) l.
