(** * Args: the command line of the client.

    cryptoballot_cli/src/main.rs 16-299: the arguments declared with clap, the address of the node and the secret key,
    and which command is called with which values.  The parser is that of clap 2.33.3 for declarations of this kind
    (positional arguments, options with one value, switches, sub commands).  Texts of help and of errors are left out:
    help and version end the program with status 0 ([Shown]), errors of usage with status 1 ([Misused]).
    Arguments are taken to be UTF-8; [similar] says which words clap takes for a misspelt sub command. *)
From Verif Require Import Base Hex Utf8 Cbor Value Ident Crypto Types Serde Validate Json Trustee Authn Setup.
From Coq Require Strings.String.
Import String.StringSyntax.
Open Scope list_scope.

(** [Arg]: without [long] it is positional; positional arguments are numbered in the order of declaration *)
Record Arg := mk_arg { a_name : rstring; a_long : bool; a_takes : bool; a_required : bool; a_default : option rstring }.
Definition posit (n : rstring) (req : bool) : Arg := mk_arg n false true req None.
Definition opt (n : rstring) (req : bool) (d : option rstring) : Arg := mk_arg n true true req d.
Definition switch (n : rstring) : Arg := mk_arg n true false false None.
(** [App], [SubCommand]; [p_else]: AppSettings::ArgRequiredElseHelp *)
Inductive App := mk_app (p_name : rstring) (p_args : list Arg) (p_subs : list App) (p_else : bool).
Definition p_name (a : App) := let (n, _, _, _) := a in n.
Definition p_args (a : App) := let (_, l, _, _) := a in l.
Definition p_subs (a : App) := let (_, _, s, _) := a in s.
Definition p_else (a : App) := let (_, _, _, e) := a in e.

(** main.rs 17-222 *)
Definition generate (args : list Arg) : App := mk_app (lit "generate") args [] false.
Definition group (n : rstring) (args : list Arg) : App := mk_app n [] [generate args] true.
Definition cli : App := mk_app (lit "CryptoBallot") [posit (lit "uri") false; posit (lit "secret-key") false]
  [mk_app (lit "keygen") [] [] false;
   mk_app (lit "sign") [posit (lit "INPUT") true; opt (lit "secret") true None] [] true;
   mk_app (lit "get") [posit (lit "id") true; switch (lit "pretty")] [] true;
   mk_app (lit "post") [posit (lit "INPUT") true] [] true;
   mk_app (lit "tally") [posit (lit "election-id") true] [] true;
   mk_app (lit "e2e") [posit (lit "ELECTION-ID") true; switch (lit "print-votes"); switch (lit "print-tally"); switch (lit "print-results")] [] true;
   group (lit "trustee") [opt (lit "secret") true None];
   group (lit "authn") [opt (lit "secret") true None; opt (lit "keysize") false (Some (lit "4096"))];
   group (lit "election") [switch (lit "post")];
   group (lit "voting_end") [posit (lit "ELECTION-ID") true; switch (lit "post")];
   group (lit "vote") [posit (lit "ELECTION-ID") true; posit (lit "VOTE") true; switch (lit "post")]] true.

(** ** The parser *)
(** [ArgMatches]: the values of the positional arguments, the options and switches with their values, the sub command *)
Inductive Matches := mk_matches (m_app : App) (m_pos : list rstring) (m_opts : list (rstring * rstring)) (m_sub : option (rstring * Matches)).
Definition m_app (m : Matches) := let (a, _, _, _) := m in a.
Definition m_pos (m : Matches) := let (_, p, _, _) := m in p.
Definition m_opts (m : Matches) := let (_, _, o, _) := m in o.
Definition m_sub (m : Matches) := let (_, _, _, s) := m in s.
Inductive Stop := Shown | Misused | BadSecret (e : KeyExit) | NoSecret.

Fixpoint index_of (n : rstring) (l : list Arg) : option nat :=
  match l with
  | [] => None
  | a :: l' => if rs_eqb (a_name a) n then Some 0 else option_map S (index_of n l')
  end.
Definition positional (a : App) : list Arg := filter (fun x => negb (a_long x)) (p_args a).
Definition named (a : App) : list Arg := filter a_long (p_args a).
Definition given_value (a : App) (pos : list rstring) (opts : list (rstring * rstring)) (n : rstring) : option rstring :=
  match index_of n (positional a) with
  | Some i => nth_error pos i
  | None => assoc rs_eqb n opts
  end.
(** [ArgMatches::value_of] with defaults, [is_present] *)
Definition default_of (a : App) (n : rstring) : option rstring :=
  match find (fun x => rs_eqb (a_name x) n) (p_args a) with Some x => a_default x | None => None end.
Definition value (m : Matches) (n : rstring) : option rstring :=
  match given_value (m_app m) (m_pos m) (m_opts m) n with Some v => Some v | None => default_of (m_app m) n end.
Definition present (m : Matches) (n : rstring) : bool := match value m n with Some _ => true | None => false end.

Record St := mk_st { t_pos : list rstring; t_opts : list (rstring * rstring); t_trail : bool; t_pend : option rstring; t_bad : bool }.
(* [t_bad]: an option was left without its value *)
Definition st0 : St := mk_st [] [] false None false.

Definition dash : byte := x2d.
Definition starts_dash (t : bytes) : bool := match t with c :: _ :: _ => Byte.eqb c dash | _ => false end.
Definition starts_dashes (t : bytes) : bool := match t with c :: d :: _ => Byte.eqb c dash && Byte.eqb d dash | _ => false end.
Fixpoint drop (c : byte) (l : bytes) : bytes := match l with d :: l' => if Byte.eqb c d then drop c l' else l | [] => [] end.
Fixpoint until (c : byte) (l : bytes) : bytes * option bytes :=
  match l with
  | [] => ([], None)
  | d :: l' => if Byte.eqb c d then ([], Some l) else let (a, b) := until c l' in (d :: a, b)
  end.
Definition rstr (l : bytes) : rstring := match sub_of utf8_valid l with Some s => s | None => lit "" end.

Section Parse.
  Context (similar : rstring -> bool).

  (** Validator::validate; a switch has no value, an option only one *)
  Definition complete (a : App) (s : St) (sub : option (rstring * Matches)) : bool :=
    match t_pend s with Some _ => false | None => true end && negb (t_bad s)
    && negb (p_else a && match sub with None => true | _ => false end
             && match t_pos s, t_opts s with [], [] => true | _, _ => false end && forallb (fun x => match a_default x with None => true | _ => false end) (p_args a))
    && forallb (fun x => negb (a_required x) || match given_value a (t_pos s) (t_opts s) (a_name x) with Some _ => true | None => false end) (p_args a)
    && nodup_keys rs_eqb (t_opts s).
  Definition finish (a : App) (s : St) (sub : option (rstring * Matches)) : res Stop Matches :=
    if complete a s sub then Ok (mk_matches a (t_pos s) (t_opts s) sub) else Err Misused.

  (** an option or switch; dashes in front and equals signs before the value are all dropped (parse_long_arg, parse_opt) *)
  Definition long_arg (a : App) (s : St) (t : rstring) : res Stop St :=
    let (n, v) := until x3d (drop dash (sv t)) in
    match find (fun x => bytes_eqb (sv (a_name x)) n) (named a) with
    | Some x =>
        if a_takes x then
          match v with
          | Some w => Ok (mk_st (t_pos s) (t_opts s ++ [(a_name x, rstr (drop x3d w))]) false None (t_bad s))
          | None => Ok (mk_st (t_pos s) (t_opts s) false (Some (a_name x)) (t_bad s))
          end
        else Ok (mk_st (t_pos s) (t_opts s ++ [(a_name x, lit "")]) false None (t_bad s))
    | None => if bytes_eqb n (sv (lit "help")) || bytes_eqb n (sv (lit "version")) then Err Shown else Err Misused
    end.
  (** -h and -V; no other letters are declared (parse_short_arg) *)
  Definition short_arg (t : rstring) : Stop :=
    match drop dash (sv t) with c :: _ => if Byte.eqb c x68 || Byte.eqb c x56 then Shown else Misused | [] => Misused end.
  Definition pos_arg (a : App) (s : St) (t : rstring) : res Stop St :=
    if similar t && negb (match p_subs a with [] => true | _ => false end) then Err Misused else
    if Nat.ltb (List.length (t_pos s)) (List.length (positional a)) then Ok (mk_st (t_pos s ++ [t]) (t_opts s) (t_trail s) None (t_bad s)) else Err Misused.

  (** Parser::get_matches_with *)
  Fixpoint parse (a : App) (s : St) (l : list rstring) {struct l} : res Stop Matches :=
    match l with
    | [] => finish a s None
    | t :: r =>
        if t_trail s then let! s' := pos_arg a s t in parse a s' r
        else
          match t_pend s, find (fun c => rs_eqb (p_name c) t) (p_subs a) with
          | None, Some c => let! m := parse c st0 r in finish a s (Some (p_name c, m))
          | pend, _ =>
              let left := match pend with Some _ => true | None => t_bad s end in
              if match pend, p_subs a with None, _ :: _ => rs_eqb t (lit "help") | _, _ => false end then Err Shown else
              if starts_dashes (sv t) then
                if Nat.eqb (List.length (sv t)) 2 then parse a (mk_st (t_pos s) (t_opts s) true None left) r
                else let! s' := long_arg a (mk_st (t_pos s) (t_opts s) false None left) t in parse a s' r
              else if starts_dash (sv t) then Err (short_arg t)
              else match pend with
                   | Some n => parse a (mk_st (t_pos s) (t_opts s ++ [(n, t)]) false None (t_bad s)) r
                   | None => let! s' := pos_arg a s t in parse a s' r
                   end
          end
    end.
End Parse.

(** ** main.rs 224-299: address, key and command *)
Section Main.
  Context {C : Crypto} {TC : TCrypto} {SB : SecretBytes}.

  Inductive Call :=
  | CPost (input : rstring) | CKeygen | CSign (input secret : rstring) | CGet (id : rstring) (pretty : bool)
  | CTally (id : rstring) | CAudit (id : rstring) (votes tally results : bool)
  | CTrustee (secret : rstring) | CAuthn (secret : rstring) (keysize : N)
  | CElection (post : bool) | CVote (id vote : rstring) (post : bool) | CVotingEnd (id : rstring) (post : bool)
  | CHelp.
  Record Job := mk_job { j_uri : rstring; j_key : option ed_secret; j_call : Call }.

  (** [str::parse::<usize>] *)
  Fixpoint digits (acc : N) (l : bytes) : option N :=
    match l with
    | [] => Some acc
    | c :: l' => if in_range 48 57 c then let n := (10 * acc + (u8v c - 48))%N in if (n <? 2^64)%N then digits n l' else None else None
    end.
  Definition parse_usize (l : bytes) : option N :=
    match l with
    | [] => None
    | c :: l' => if Byte.eqb c x2b then match l' with [] => None | _ => digits 0 l' end else digits 0 l
    end.

  Definition must (m : Matches) (n : rstring) : res Stop rstring := or_panic (value m n) PUnwrap.
  (** [command_trustee], [command_authn], [command_election], [command_vote], [command_voting_end]: only [generate] *)
  Definition sub_of_name (m : Matches) (n : rstring) : option Matches :=
    match m_sub m with Some (k, m') => if rs_eqb k n then Some m' else None | None => None end.
  Definition with_generate (m : Matches) (f : Matches -> res Stop Call) : res Stop Call :=
    match sub_of_name m (lit "generate") with Some m' => f m' | None => Ok CHelp end.
  Definition need_key (k : option ed_secret) (c : res Stop Call) : res Stop Call :=
    match k with Some _ => c | None => Err NoSecret end.

  Definition call_of (k : option ed_secret) (m : Matches) : res Stop Call :=
    match sub_of_name m (lit "post") with Some m => let! f := must m (lit "INPUT") in Ok (CPost f) | None =>
    match sub_of_name m (lit "keygen") with Some _ => Ok CKeygen | None =>
    match sub_of_name m (lit "sign") with
    | Some m => let! f := must m (lit "algorithim") in let! s := must m (lit "secret") in Ok (CSign f s) | None =>
    match sub_of_name m (lit "get") with Some m => let! i := must m (lit "id") in Ok (CGet i (present m (lit "pretty"))) | None =>
    match sub_of_name m (lit "tally") with Some m => let! i := must m (lit "election-id") in Ok (CTally i) | None =>
    match sub_of_name m (lit "e2e") with
    | Some m => let! i := must m (lit "ELECTION-ID") in
                Ok (CAudit i (present m (lit "print-votes")) (present m (lit "print-tally")) (present m (lit "print-results"))) | None =>
    match sub_of_name m (lit "trustee") with
    | Some m => with_generate m (fun m => let! s := must m (lit "secret") in Ok (CTrustee s)) | None =>
    match sub_of_name m (lit "authn") with
    | Some m => with_generate m (fun m => let! s := must m (lit "secret") in let! z := must m (lit "keysize") in
                                          let! z := or_panic (parse_usize (sv z)) PExpect in Ok (CAuthn s z)) | None =>
    match sub_of_name m (lit "election") with
    | Some m => with_generate m (fun m => need_key k (Ok (CElection (present m (lit "post"))))) | None =>
    match sub_of_name m (lit "vote") with
    | Some m => with_generate m (fun m => let! i := must m (lit "ELECTION-ID") in let! v := must m (lit "VOTE") in
                                          Ok (CVote i v (present m (lit "post")))) | None =>
    match sub_of_name m (lit "voting_end") with
    | Some m => with_generate m (fun m => need_key k (let! i := must m (lit "ELECTION-ID") in Ok (CVotingEnd i (present m (lit "post")))))
    | None => Ok CHelp
    end end end end end end end end end end end.

  (** main; [env_uri], [env_key]: CRYPTOBALLOT_URI and CRYPTOBALLOT_SECRET_KEY *)
  Definition client (similar : rstring -> bool) (env_uri env_key : option rstring) (l : list rstring) : res Stop Job :=
    let! m := parse similar cli st0 l in
    let uri := match value m (lit "uri") with
               | Some u => u
               | None => match env_uri with Some u => u | None => lit "http://localhost:8080" end
               end in
    match client_key (value m (lit "secret-key")) env_key with
    | Ok k => let! c := call_of k m in Ok (mk_job uri k c)
    | Err e => Err (BadSecret e)
    | Panic p => Panic p
    end.
End Main.
