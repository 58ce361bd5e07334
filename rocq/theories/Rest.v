(** * Rest: the texts between the client, its files and a node.

    cryptoballot_cli/src/rest.rs 47-75, command_post_transaction.rs, and the commands that print a
    transaction.  HTTP is a faithful channel for a body; an error status is an error of the client. *)
From Verif Require Import Base Hex Utf8 Cbor Value Ident Crypto Types Serde Store Prost Validate Exonum Api Encrypt Audit Cli Json.
From Coq Require Strings.String.
Import String.StringSyntax.
Open Scope list_scope.

(** [str::trim]: Unicode white space, here as UTF-8 *)
Definition white : list bytes :=
  [[x09]; [x0a]; [x0b]; [x0c]; [x0d]; [x20]; [xc2; x85]; [xc2; xa0]; [xe1; x9a; x80];
   [xe2; x80; x80]; [xe2; x80; x81]; [xe2; x80; x82]; [xe2; x80; x83]; [xe2; x80; x84]; [xe2; x80; x85];
   [xe2; x80; x86]; [xe2; x80; x87]; [xe2; x80; x88]; [xe2; x80; x89]; [xe2; x80; x8a];
   [xe2; x80; xa8]; [xe2; x80; xa9]; [xe2; x80; xaf]; [xe2; x81; x9f]; [xe3; x80; x80]].
Fixpoint strip (cs : list bytes) (f : nat) (l : bytes) : bytes :=
  match f with
  | O => l
  | S f' => match find (fun c => bytes_eqb (firstn (length c) l) c) cs with
            | Some c => strip cs f' (skipn (length c) l)
            | None => l
            end
  end.
Definition trim_start (l : bytes) : bytes := strip white (length l) l.
Definition trim_end (l : bytes) : bytes := rev (strip (map (@rev byte) white) (length l) (rev l)).
Definition trim (l : bytes) : bytes := trim_end (trim_start l).

Section Rest.
  Context {C : Crypto}.

  (** the bodies of the two endpoints *)
  Definition body_tx (L : Ledger) (id : rstring) : res ApiError bytes := let! x := get_tx L id in Ok (stx_json x).
  Definition body_all (L : Ledger) (prefix : option rstring) : res ApiError bytes := let! l := get_all L prefix in Ok (stxs_json l).

  (** [reqwest::Error]: an error status, or a body that does not parse *)
  Inductive RestError := Status (e : ApiError) | BadBody.
  (** [get_transaction], rest.rs 47-58 *)
  Definition rest_get (L : Ledger) (i : Identifier) : res RestError STx :=
    let! b := map_err Status (body_tx L (mk_sub (id_to_string i) (norm_true (hex_utf8 (id_to_bytes i))))) in
    map_err (fun _ => BadBody) (stx_from_json b).
  (** [get_transactions_by_prefix], rest.rs 60-73 *)
  Definition rest_list (L : Ledger) (prefix : rstring) : res RestError (list STx) :=
    let! b := map_err Status (body_all L (Some prefix)) in
    map_err (fun _ => BadBody) (stxs_from_json b).

  (** [command_e2e] (command_e2e.rs 6-43) over these texts *)
  Definition text_e2e (dbg : bool) (L : Ledger) (election_id : rstring) : res AuditError MemStore :=
    fail_if (Nat.ltb (length (sv election_id)) 15) BadElectionId ;;
    (if is_char_boundary (sv election_id) 15 then Ok tt else Panic PIndex) ;;
    match sub_of utf8_valid (firstn 15 (sv election_id)) with
    | None => Panic PIndex
    | Some prefix =>
        match rest_list L prefix with
        | Ok txs => audit dbg txs
        | Err _ => Panic PUnwrap
        | Panic p => Panic p
        end
    end.

  (** [println!] of [to_string_pretty] *)
  Definition printed (x : STx) : bytes := stx_pretty x ++ [x0a].
  (** [command_post_transaction], from the bytes of the file (lines 20-65): why it exits *)
  Inductive PostExit := NotText | NotJson.
  Definition read_file (f : bytes) : res PostExit (list STx) :=
    if utf8_valid f then
      let s := trim f in
      match s with
      | b :: _ => if Byte.eqb b x5b then map_err (fun _ => NotJson) (stxs_from_json s)
                  else let! x := map_err (fun _ => NotJson) (stx_from_json s) in Ok [x]
      | [] => Err NotJson
      end
    else Err NotText.
  Definition post_file (dbg : bool) (L : Ledger) (f : bytes) : res PostExit Ledger :=
    let! l := read_file f in Ok (cli_post dbg L l).
End Rest.
