(** * Value: [serde_json::Value], the type of application properties.

    serde_json is built with [preserve_order] (cryptoballot/Cargo.toml 50-51) and, through
    rust_decimal (Cargo.toml 36), with [arbitrary_precision]: a number is kept as its text, and
    serialisers other than that of serde_json write it as a map from a reserved key to this text.
    Dependency code, modelled from the documented behaviour of serde_json 1.0.64.
    Simplification: CBOR floats are not read (this code never writes them). *)
From Verif Require Import Base Utf8 Cbor.
From Coq Require Import Strings.String.
Open Scope list_scope.

(** ** Numbers *)
Definition digit (b : byte) : bool := in_range 48 57 b.
Fixpoint digits (l : bytes) : bytes * bytes :=
  match l with
  | b :: r => if digit b then let (d, r') := digits r in (b :: d, r') else ([], l)
  | [] => ([], [])
  end.
(** [scan_integer], [scan_decimal], [scan_exponent] of serde_json::de: the text read (with a
    lower case [e] and no [+]) and the rest *)
Definition scan_int (l : bytes) : option (bytes * bytes) :=
  match digits l with
  | ([], _) => None
  | (b :: d, r) => if Byte.eqb b x30 && negb (Nat.eqb (List.length d) 0) then None else Some (b :: d, r)
  end.
Definition scan_frac (l : bytes) : option (bytes * bytes) :=
  match l with
  | b :: r => if Byte.eqb b x2e then match digits r with ([], _) => None | (d, r') => Some (b :: d, r') end
              else Some ([], l)
  | [] => Some ([], [])
  end.
Definition scan_sign (l : bytes) : bytes * bytes :=
  match l with
  | b :: r => if Byte.eqb b x2b then ([], r) else if Byte.eqb b x2d then ([b], r) else ([], l)
  | [] => ([], [])
  end.
Definition scan_exp (l : bytes) : option (bytes * bytes) :=
  match l with
  | b :: r =>
      if Byte.eqb b x65 || Byte.eqb b x45 then
        let (s, r1) := scan_sign r in
        match digits r1 with ([], _) => None | (d, r') => Some (x65 :: s ++ d, r') end
      else Some ([], l)
  | [] => Some ([], [])
  end.
Definition scan_minus (l : bytes) : bytes * bytes :=
  match l with b :: r => if Byte.eqb b x2d then ([b], r) else ([], l) | [] => ([], []) end.
Definition scan_num (l : bytes) : option (bytes * bytes) :=
  let (s, l0) := scan_minus l in
  match scan_int l0 with
  | Some (i, l1) =>
      match scan_frac l1 with
      | Some (f, l2) => match scan_exp l2 with Some (e, l3) => Some (s ++ i ++ f ++ e, l3) | None => None end
      | None => None
      end
  | None => None
  end.

(** decimal numerals *)
Fixpoint dec_fuel (f : nat) (n : N) : bytes :=
  match f with
  | O => []
  | S f' => if (n <? 10)%N then [u8_of (48 + n)] else dec_fuel f' (n / 10) ++ [u8_of (48 + n mod 10)]
  end.
Definition dec (n : u64) : bytes := dec_fuel 20 (uv n).
Definition undec (l : bytes) : N := fold_left (fun a b => 10 * a + (u8v b - 48))%N l 0%N.

(** an integer that fits: what [parse::<u64>()] or [parse::<i64>()] gives, as a CBOR item; the
    numeral of such an item *)
Definition as_int (s : bytes) : option cval :=
  match scan_minus s with
  | ([], d) => if forallb digit d && (undec d <? 2 ^ 64)%N then Some (CUint (u_of 8 (undec d))) else None
  | (_, d) =>
      if forallb digit d && (undec d <=? 2 ^ 63)%N
      then Some (if (undec d =? 0)%N then CUint (u_of 8 0) else CNint (u_of 8 (undec d - 1))) else None
  end.
Definition neg_text (n : u64) : bytes := x2d :: dec_fuel 20 (uv n + 1).

(** the text that a [Number] keeps *)
Definition num_norm (s : bytes) : bytes := if bytes_eqb s [x2d; x30] then [x30] else s.
(** [Number::from_str] *)
Definition num_of (s : bytes) : option bytes :=
  match scan_num s with Some (t, []) => Some (num_norm t) | _ => None end.
Definition num_ok (s : bytes) : bool := match num_of s with Some t => bytes_eqb t s | None => false end.

(** ** Values *)
Inductive jval :=
| JNull
| JBool (b : bool)
| JNum (s : rstring)
| JStr (s : rstring)
| JArr (l : list jval)
| JObj (l : list (rstring * jval)).

(** the reserved key *)
Definition token : rstring := @mk_sub bytes utf8_valid (list_byte_of_string "$serde_json::private::Number") eq_refl.

Fixpoint no_dup (l : list rstring) : bool :=
  match l with [] => true | k :: l' => negb (existsb (rs_eqb k) l') && no_dup l' end.
(** what a [Value] can be: numerals are numerals; the keys of an object are distinct, and the first is not the
    reserved one *)
Fixpoint jok (j : jval) : bool :=
  match j with
  | JNum s => num_ok (sv s)
  | JArr l => forallb jok l
  | JObj l => no_dup (map fst l) && negb (match l with (k, _) :: _ => rs_eqb k token | [] => false end)
              && forallb (fun p => match p with (_, v) => jok v end) l
  | _ => true
  end.
Definition Value := sub jok.

(** [Serialize for Value], into CBOR *)
Fixpoint ser_jval (j : jval) : cval :=
  match j with
  | JNull => CNull
  | JBool b => CBool b
  | JNum s => CMap [(CText token, CText s)]
  | JStr s => CText s
  | JArr l => CArr (map ser_jval l)
  | JObj l => CMap (map (fun p => match p with (k, v) => (CText k, ser_jval v) end) l)
  end.
Definition ser_value (v : Value) : cval := ser_jval (sv v).

(** [IndexMap] insertion: an existing key keeps its position and gets the new value *)
Fixpoint iput {K V} (eqb : K -> K -> bool) (l : list (K * V)) (k : K) (v : V) : list (K * V) :=
  match l with
  | [] => [(k, v)]
  | (x, w) :: l' => if eqb k x then (x, v) :: l' else (x, w) :: iput eqb l' k v
  end.
Definition ibuild {K V} (eqb : K -> K -> bool) (l : list (K * V)) : list (K * V) :=
  fold_left (fun m '(k, v) => iput eqb m k v) l [].

(** all or nothing *)
Fixpoint all_some {A} (l : list (option A)) : option (list A) :=
  match l with
  | [] => Some []
  | Some a :: l' => match all_some l' with Some r => Some (a :: r) | None => None end
  | None :: _ => None
  end.
Definition num_text (s : bytes) : option jval :=
  match sub_of utf8_valid s with Some t => Some (JNum t) | None => None end.
Definition num_from (s : bytes) : option jval := match num_of s with Some t => num_text t | None => None end.

(** [Deserialize for Value] (value/de.rs of serde_json) *)
Definition de_key_text (k : cval) : option rstring := match k with CText s => Some s | _ => None end.
Fixpoint de_jval (v : cval) : option jval :=
  match v with
  | CNull => Some JNull
  | CBool b => Some (JBool b)
  | CUint n => num_text (dec n)
  | CNint n => if (uv n <? 2 ^ 63)%N then num_text (neg_text n) else None
  | CText s => Some (JStr s)
  | CArr l => match all_some (map de_jval l) with Some r => Some (JArr r) | None => None end
  | CMap l =>
      match l with
      | (CText k, x) :: r =>
          if rs_eqb k token
          then match x, r with CText s, [] => num_from (sv s) | _, _ => None end
          else match all_some (map (fun p => match p with
                                             | (a, b) => match de_key_text a, de_jval b with
                                                         | Some k', Some w => Some (k', w) | _, _ => None end
                                             end) l) with
               | Some ps => Some (JObj (ibuild rs_eqb ps))
               | None => None
               end
      | [] => Some (JObj [])
      | _ => None
      end
  | _ => None
  end.
Definition de_value (v : cval) : res unit Value :=
  match de_jval v with Some j => ok_or (sub_of jok j) tt | None => Err tt end.
