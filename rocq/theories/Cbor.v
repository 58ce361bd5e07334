(** * Cbor: CBOR data items with encoder and decoder, the subset produced by serde_cbor 0.11.

    Dependency code (serde_cbor), modelled from RFC 7049 and the crate's documented behaviour:
    [to_vec] writes definite lengths and minimal headers; [from_slice] rejects trailing bytes
    and nesting deeper than 127.  Not modelled: indefinite-length items, tags, half floats and
    simple values other than false/true/null (the model's decoder rejects them). *)
From Verif Require Import Base Utf8.

Inductive cval :=
| CUint (n : u64)
| CNint (n : u64)                    (* the value -1 - n *)
| CBytes (b : bytes)
| CText (s : rstring)
| CArr (l : list cval)
| CMap (l : list (cval * cval))
| CBool (b : bool)
| CNull
| CF32 (n : u32)
| CF64 (n : u64).

(** ** Encoder *)
Definition chead (major : N) (n : N) : bytes :=
  if (n <? 24)%N then [u8_of (32 * major + n)]
  else if (n <? 256)%N then u8_of (32 * major + 24) :: be_list 1 n
  else if (n <? 65536)%N then u8_of (32 * major + 25) :: be_list 2 n
  else if (n <? 4294967296)%N then u8_of (32 * major + 26) :: be_list 4 n
  else u8_of (32 * major + 27) :: be_list 8 n.

Definition clen {A} (l : list A) : N := N.of_nat (length l).

Fixpoint cenc (v : cval) : bytes :=
  match v with
  | CUint n => chead 0 (uv n)
  | CNint n => chead 1 (uv n)
  | CBytes b => chead 2 (clen b) ++ b
  | CText s => chead 3 (clen (sv s)) ++ sv s
  | CArr l => chead 4 (clen l) ++ flat_map cenc l
  | CMap l => chead 5 (clen l) ++ flat_map (fun p => match p with (a, b) => cenc a ++ cenc b end) l
  | CBool false => [xf4]
  | CBool true => [xf5]
  | CNull => [xf6]
  | CF32 n => xfa :: be_list 4 (uv n)
  | CF64 n => xfb :: be_list 8 (uv n)
  end.

(** ** Decoder *)

(** header: (major type, additional information, argument, rest) *)
Definition take_be (k : nat) (l : bytes) : option (N * bytes) :=
  if Nat.leb k (length l) then Some (be_val (firstn k l), skipn k l) else None.

Definition dhead (l : bytes) : option (N * N * N * bytes) :=
  match l with
  | [] => None
  | b :: r =>
      let major := N.div (u8v b) 32 in
      let ai := N.modulo (u8v b) 32 in
      if (ai <? 24)%N then Some (major, ai, ai, r)
      else
        match (if (ai =? 24)%N then take_be 1 r
               else if (ai =? 25)%N then take_be 2 r
               else if (ai =? 26)%N then take_be 4 r
               else if (ai =? 27)%N then take_be 8 r
               else None) with
        | Some (n, r') => Some (major, ai, n, r')
        | None => None
        end
  end.

Definition take_bytes (n : N) (l : bytes) : option (bytes * bytes) :=
  if (n <=? clen l)%N then Some (firstn (N.to_nat n) l, skipn (N.to_nat n) l) else None.

(** [n] items; every item takes at least one byte, so the input length is enough fuel *)
Fixpoint ditems {A} (dec : bytes -> option (A * bytes)) (fuel : nat) (n : N) (l : bytes)
  : option (list A * bytes) :=
  if (n =? 0)%N then Some ([], l) else
  match fuel with
  | O => None
  | S f =>
      match dec l with
      | Some (a, r) =>
          match ditems dec f (n - 1) r with
          | Some (xs, r') => Some (a :: xs, r')
          | None => None
          end
      | None => None
      end
  end.

Definition dpair {A B} (da : bytes -> option (A * bytes)) (db : bytes -> option (B * bytes)) (l : bytes)
  : option ((A * B) * bytes) :=
  match da l with
  | Some (a, r) => match db r with Some (b, r') => Some ((a, b), r') | None => None end
  | None => None
  end.

(** [d] is the remaining nesting depth *)
Fixpoint cdec (d : nat) (l : bytes) : option (cval * bytes) :=
  match dhead l with
  | None => None
  | Some (major, ai, n, r) =>
      if (major =? 0)%N then Some (CUint (u_of 8 n), r)
      else if (major =? 1)%N then Some (CNint (u_of 8 n), r)
      else if (major =? 2)%N then
        match take_bytes n r with Some (b, r') => Some (CBytes b, r') | None => None end
      else if (major =? 3)%N then
        match take_bytes n r with
        | Some (b, r') => match sub_of utf8_valid b with Some s => Some (CText s, r') | None => None end
        | None => None
        end
      else if (major =? 4)%N then
        match d with
        | O => None
        | S d' => match ditems (cdec d') (length r) n r with
                  | Some (xs, r') => Some (CArr xs, r') | None => None end
        end
      else if (major =? 5)%N then
        match d with
        | O => None
        | S d' => match ditems (dpair (cdec d') (cdec d')) (length r) n r with
                  | Some (xs, r') => Some (CMap xs, r') | None => None end
        end
      else if (major =? 7)%N then
        if (ai =? 20)%N then Some (CBool false, r)
        else if (ai =? 21)%N then Some (CBool true, r)
        else if (ai =? 22)%N then Some (CNull, r)
        else if (ai =? 26)%N then Some (CF32 (u_of 4 n), r)
        else if (ai =? 27)%N then Some (CF64 (u_of 8 n), r)
        else None
      else None
  end.

(** [serde_cbor::from_slice]: the depth counter starts at 128 and an array or map that brings it
    to 0 is an error, so 127 nested arrays and maps are accepted; no trailing data. *)
Definition max_depth : nat := 127.
Definition cbor_from_slice (l : bytes) : option cval :=
  match cdec max_depth l with
  | Some (v, []) => Some v
  | _ => None
  end.

(** ** Well-formedness: lengths fit in 64 bits; nesting depth *)
Fixpoint cwf (v : cval) : bool :=
  match v with
  | CBytes b => (clen b <? pow256 8)%N
  | CText s => (clen (sv s) <? pow256 8)%N
  | CArr l => (clen l <? pow256 8)%N && forallb cwf l
  | CMap l => (clen l <? pow256 8)%N && forallb (fun p => match p with (a, b) => cwf a && cwf b end) l
  | _ => true
  end.

Fixpoint cdepth (v : cval) : nat :=
  match v with
  | CArr l => S (fold_right (fun x m => Nat.max (cdepth x) m) 0 l)
  | CMap l => S (fold_right (fun p m => match p with (a, b) => Nat.max (Nat.max (cdepth a) (cdepth b)) m end) 0 l)
  | _ => 0
  end.
