(** * SpecDoc: which items bytes and texts hold: CBOR (RFC 7049, definite lengths) and JSON (RFC 8259).
    Nothing here refers to the model of the two parsers. *)
From Verif Require Import Base Utf8 Cbor SpecWire.
From Coq Require Strings.String.
Import String.StringSyntax.
Open Scope list_scope.

(** ** CBOR *)
Fixpoint big_endian (a : N) (l : bytes) : N :=
  match l with [] => a | b :: r => big_endian (256 * a + u8v b) r end.
Definition many {A} (l : list A) : N := N.of_nat (length l).
(** the head of an item of major type [m] with argument [n]; not necessarily the shortest *)
Definition head (m n : N) (h : bytes) : Prop :=
  exists b l, h = b :: l
  /\ ((n < 24)%N /\ u8v b = (32 * m + n)%N /\ l = []
      \/ n = big_endian 0 l
         /\ exists k, u8v b = (32 * m + 24 + k)%N /\ (k < 4)%N /\ many l = (2 ^ k)%N).
(** [p] is the item [v], with at most [d] arrays and maps inside each other *)
Fixpoint item (d : nat) (p : bytes) (v : cval) : Prop :=
  match v with
  | CUint n => head 0 (uv n) p
  | CNint n => head 1 (uv n) p
  | CBytes b => exists h, head 2 (many b) h /\ p = h ++ b
  | CText s => exists h, head 3 (many (sv s)) h /\ p = h ++ sv s
  | CArr l => match d with
              | O => False
              | S d' => exists h ps, head 4 (many l) h /\ Forall2 (item d') ps l /\ p = h ++ concat ps
              end
  | CMap l => match d with
              | O => False
              | S d' => exists h ps, head 5 (many l) h
                          /\ Forall2 (fun q kv => exists q1 q2, q = q1 ++ q2 /\ item d' q1 (fst kv) /\ item d' q2 (snd kv)) ps l
                          /\ p = h ++ concat ps
              end
  | CBool b => p = [if b then xf5 else xf4]
  | CNull => p = [xf6]
  | CF32 n => exists l, length l = 4 /\ p = xfa :: l /\ big_endian 0 l = uv n
  | CF64 n => exists l, length l = 8 /\ p = xfb :: l /\ big_endian 0 l = uv n
  end.

(** ** JSON *)
Definition space (l : bytes) : Prop := forall c, In c l -> In c [x20; x09; x0a; x0d].
(** [u] is the UTF-8 form of the character [n] *)
Definition utf8_form (n : N) (u : bytes) : Prop :=
  ((n < 128 /\ exists a, u = [a] /\ u8v a = n)
   \/ (128 <= n < 2048 /\ exists a b x y, u = [a; b] /\ u8v a = 192 + x /\ u8v b = 128 + y /\ y < 64 /\ n = 64 * x + y)
   \/ (2048 <= n < 65536 /\ exists a b c x y z, u = [a; b; c] /\ u8v a = 224 + x /\ u8v b = 128 + y /\ u8v c = 128 + z
         /\ y < 64 /\ z < 64 /\ n = 4096 * x + 64 * y + z)
   \/ (65536 <= n < 1114112 /\ exists a b c d x y z w, u = [a; b; c; d] /\ u8v a = 240 + x /\ u8v b = 128 + y /\ u8v c = 128 + z /\ u8v d = 128 + w
         /\ y < 64 /\ z < 64 /\ w < 64 /\ n = 262144 * x + 4096 * y + 64 * z + w))%N.
(** four hexadecimal digits *)
Definition code (q : bytes) (n : N) : Prop := exists h l, spells q [h; l] /\ n = (256 * u8v h + u8v l)%N.
Definition high (n : N) : Prop := (55296 <= n < 56320)%N.
Definition low (n : N) : Prop := (56320 <= n < 57344)%N.
Definition short : list (byte * byte) :=
  [(x22, x22); (x5c, x5c); (x2f, x2f); (x62, x08); (x66, x0c); (x6e, x0a); (x72, x0d); (x74, x09)].
(** what stands between the quotes *)
Inductive chars : bytes -> bytes -> Prop :=
| c_end : chars [] []
| c_plain b s t : (32 <= u8v b)%N -> b <> x22 -> b <> x5c -> chars s t -> chars (b :: s) (b :: t)
| c_short e b s t : In (e, b) short -> chars s t -> chars (x5c :: e :: s) (b :: t)
| c_code q n u s t : code q n -> ~ high n -> ~ low n -> utf8_form n u -> chars s t -> chars (x5c :: x75 :: q ++ s) (u ++ t)
| c_pair q n q' m u s t : code q n -> high n -> code q' m -> low m ->
    utf8_form (65536 + 1024 * (n - 55296) + (m - 56320)) u -> chars s t ->
    chars (x5c :: x75 :: q ++ x5c :: x75 :: q' ++ s) (u ++ t).
Definition quoted (l : bytes) (t : rstring) : Prop := exists s, l = x22 :: s ++ [x22] /\ chars s (sv t).

(** a number: an integer of 64 bits where it is one, else its text *)
Definition worth_item (t : rstring) (v : cval) : Prop :=
  (exists n, numeral (sv t) (uv n) /\ v = CUint n)
  \/ (exists n l, sv t = x2d :: l /\ numeral l (uv n + 1) /\ (uv n < 2 ^ 63)%N /\ v = CNint n)
  \/ ((forall n, numeral (sv t) n -> (2 ^ 64 <= n)%N) /\ (forall l n, sv t = x2d :: l -> numeral l n -> (2 ^ 63 < n)%N) /\ v = kept t).

Fixpoint join (ps : list bytes) : bytes :=
  match ps with [] => [] | p :: r => p ++ match r with [] => [] | _ => x2c :: join r end end.
Section Lists.
  Context {A : Type} (R : bytes -> A -> Prop).
  Definition padded (l : bytes) (x : A) : Prop := exists a s b, l = a ++ s ++ b /\ space a /\ space b /\ R s x.
  Definition enclosed (o c : byte) (l : bytes) (xs : list A) : Prop :=
    exists body, l = o :: body ++ [c]
    /\ (xs = [] /\ space body \/ xs <> [] /\ exists ps, Forall2 padded ps xs /\ body = join ps).
End Lists.
Definition entry (R : bytes -> cval -> Prop) (l : bytes) (p : cval * cval) : Prop :=
  exists k q a b s, fst p = CText k /\ quoted q k /\ space a /\ space b /\ R s (snd p) /\ l = q ++ a ++ x3a :: b ++ s.
(** the text [l] is the value [v], with at most [d] arrays and objects inside each other *)
Fixpoint doc (d : nat) (l : bytes) (v : cval) : Prop :=
  l = sv (name "null") /\ v = CNull
  \/ l = sv (name "true") /\ v = CBool true
  \/ l = sv (name "false") /\ v = CBool false
  \/ (exists t, number l (sv t) /\ worth_item t v)
  \/ (exists t, quoted l t /\ v = CText t)
  \/ match d with
     | O => False
     | S d' => (exists vs, enclosed (doc d') x5b x5d l vs /\ v = CArr vs)
               \/ (exists m, enclosed (entry (doc d')) x7b x7d l m /\ v = CMap m)
     end.
Definition document (l : bytes) (v : cval) : Prop := padded (doc 127) l v.
