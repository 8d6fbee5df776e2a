(** The parts of JavaScript and Node.js that /repo/index.js relies on, as far as
    they are used there.

    A string is a list of UTF-16 code units, a Buffer a list of bytes. *)
From Verif Require Import Base.
From Coq Require Import Strings.String Strings.Ascii.
Close Scope string_scope.

Notation cu := N (only parsing).
Notation jstr := (list N) (only parsing).

(** A literal of the source text (all literals of index.js are ASCII). *)
Definition bytes_of_string (s : string) : list byte := list_byte_of_string s.
Definition J (s : string) : jstr := map Byte.to_N (bytes_of_string s).
Definition Bf (s : string) : list byte := bytes_of_string s.
Arguments J s%string_scope.
Arguments Bf s%string_scope.

Fixpoint jeq (a b : jstr) : bool :=
  match a, b with
  | [], [] => true
  | x :: a, y :: b => N.eqb x y && jeq a b
  | _, _ => false
  end.

(** ** Encoding of strings *)

Definition hi_surr (c : cu) : bool := (0xD800 <=? c)%N && (c <? 0xDC00)%N.
Definition lo_surr (c : cu) : bool := (0xDC00 <=? c)%N && (c <? 0xE000)%N.

Definition b8 (n : N) : byte := u8 (Z.of_N n).
Definition utf8_2 (c : N) : list byte := [b8 (0xC0 + c / 64); b8 (0x80 + c mod 64)].
Definition utf8_3 (c : N) : list byte := [b8 (0xE0 + c / 4096); b8 (0x80 + c / 64 mod 64); b8 (0x80 + c mod 64)].
Definition utf8_4 (c : N) : list byte :=
  [b8 (0xF0 + c / 262144); b8 (0x80 + c / 4096 mod 64); b8 (0x80 + c / 64 mod 64); b8 (0x80 + c mod 64)].

(** Buffer.from(s, 'utf8'): lone surrogates become U+FFFD. *)
Fixpoint utf8_enc (s : jstr) : list byte :=
  match s with
  | [] => []
  | c :: t =>
    if (c <? 0x80)%N then b8 c :: utf8_enc t
    else if (c <? 0x800)%N then utf8_2 c ++ utf8_enc t
    else if hi_surr c then
      match t with
      | d :: t' => if lo_surr d
                   then utf8_4 (0x10000 + (c - 0xD800) * 1024 + (d - 0xDC00)) ++ utf8_enc t'
                   else utf8_3 0xFFFD ++ utf8_enc t
      | [] => utf8_3 0xFFFD
      end
    else if lo_surr c then utf8_3 0xFFFD ++ utf8_enc t
    else utf8_3 c ++ utf8_enc t
  end.

(** buf.toString('utf8'): the decoder of the WHATWG encoding standard.  State:
    bytes still needed, code point so far, range of the next byte. *)
Definition ustate := (nat * N * N * N)%type.
Definition u_idle : ustate := (0%nat, 0, 0, 0)%N.
Definition units (c : N) : jstr :=
  if (c <? 0x10000)%N then [c]
  else [0xD800 + (c - 0x10000) / 1024; 0xDC00 + (c - 0x10000) mod 1024]%N.
Definition u_lead (b : N) : jstr * ustate :=
  (if b <? 0x80 then ([b], u_idle)
   else if b <? 0xC2 then ([0xFFFD], u_idle)
   else if b <? 0xE0 then ([], (1%nat, b - 0xC0, 0x80, 0xBF))
   else if b <? 0xF0 then ([], (2%nat, b - 0xE0, if b =? 0xE0 then 0xA0 else 0x80, if b =? 0xED then 0x9F else 0xBF))
   else if b <? 0xF5 then ([], (3%nat, b - 0xF0, if b =? 0xF0 then 0x90 else 0x80, if b =? 0xF4 then 0x8F else 0xBF))
   else ([0xFFFD], u_idle))%N.
Fixpoint utf8_run (st : ustate) (l : list byte) : jstr :=
  let '(need, cp, lo, hi) := st in
  match l with
  | [] => match need with O => [] | _ => [0xFFFD]%N end
  | b :: t =>
    let b := Byte.to_N b in
    match need with
    | O => let '(o, st') := u_lead b in o ++ utf8_run st' t
    | S k =>
      if (lo <=? b)%N && (b <=? hi)%N then
        let cp := (cp * 64 + (b - 0x80))%N in
        match k with
        | O => units cp ++ utf8_run u_idle t
        | _ => utf8_run (k, cp, 0x80, 0xBF)%N t
        end
      else (let '(o, st') := u_lead b in 0xFFFD%N :: o ++ utf8_run st' t)
    end
  end.
Definition utf8_dec (l : list byte) : jstr := utf8_run u_idle l.

(** ** String functions *)

(** White space and line terminators as removed by String.prototype.trim. *)
Definition is_space (c : cu) : bool :=
  existsb (N.eqb c) [9; 10; 11; 12; 13; 32; 160; 0x1680; 0x2028; 0x2029; 0x202F; 0x205F; 0x3000; 0xFEFF]%N
  || ((0x2000 <=? c)%N && (c <=? 0x200A)%N).
Fixpoint trim_l (s : jstr) : jstr :=
  match s with [] => [] | c :: t => if is_space c then trim_l t else s end.
Definition trim_r (s : jstr) : jstr := rev (trim_l (rev s)).
Definition trim (s : jstr) : jstr := trim_r (trim_l s).

(** s.indexOf(' ') together with the substrings before and behind it. *)
Fixpoint cut_space (s : jstr) : jstr * option jstr :=
  match s with
  | [] => ([], None)
  | c :: t => if N.eqb c 32 then ([], Some t)
              else let '(a, b) := cut_space t in (c :: a, b)
  end.

(** String(n) for an integer of absolute value below 10^21. *)
Definition digit (n : Z) : cu := Z.to_N (48 + n).
Fixpoint digits (fuel : nat) (n : Z) : jstr :=
  match fuel with
  | O => []
  | S f => (if n <? 10 then [] else digits f (n / 10)) ++ [digit (n mod 10)]
  end.
Definition fuel_of (n : Z) : nat := S (Z.to_nat (Z.log2 n)).
Definition js_dec (n : Z) : jstr :=
  if n <? 0 then 45%N :: digits (fuel_of (- n)) (- n) else digits (fuel_of n) n.

(** buf.toString('hex'). *)
Definition hex_digit (n : N) : cu := (if n <? 10 then 48 + n else 87 + n)%N.
Definition js_hex (l : list byte) : jstr :=
  flat_map (fun b => [hex_digit (Byte.to_N b / 16)%N; hex_digit (Byte.to_N b mod 16)%N]) l.

(** s.toLowerCase(), for the characters a CRC in hexadecimal may contain; the
    effect on non-ASCII characters is not modelled (comparison with lower-case
    hexadecimal digits is all it is used for; U+212A is the only non-ASCII
    character whose lower case is ASCII, and it is not a hexadecimal digit). *)
Definition lower (s : jstr) : jstr :=
  map (fun c => if (65 <=? c)%N && (c <=? 90)%N then (c + 32)%N else c) s.

(** ** Numbers *)

(** The operations on numbers used by from_post.  Any type with these operations
    that is exact on integers below 2^53 will do; IEEE doubles are one. *)
Record numbers := {
  num : Type;
  of_str : option jstr -> num;   (** unary + on a property; [None] is undefined *)
  of_int : Z -> num;
  nlt : num -> num -> bool;
  neq : num -> num -> bool;
  nsub : num -> num -> num;
  nadd : num -> num -> num
}.

(** /^\d+$/ *)
Definition is_digit (c : cu) : bool := (48 <=? c)%N && (c <=? 57)%N.
Definition is_number (s : jstr) : bool :=
  match s with [] => false | _ => forallb is_digit s end.
Definition dec_val (s : jstr) : Z := fold_left (fun a c => 10 * a + (Z.of_N c - 48)) s 0.

Record numbers_ok (A : numbers) : Prop := {
  num_str : forall s, is_number s = true -> dec_val s < 2 ^ 53 -> of_str A (Some s) = of_int A (dec_val s);
  num_undef_l : forall x, nlt A (of_str A None) x = false;
  num_undef_r : forall x, nlt A x (of_str A None) = false;
  num_lt : forall a b, 0 <= a < 2 ^ 53 -> 0 <= b < 2 ^ 53 -> nlt A (of_int A a) (of_int A b) = (a <? b);
  num_eq : forall a b, 0 <= a < 2 ^ 53 -> 0 <= b < 2 ^ 53 -> neq A (of_int A a) (of_int A b) = (a =? b);
  num_sub : forall a b, 0 <= b <= a -> a < 2 ^ 53 -> nsub A (of_int A a) (of_int A b) = of_int A (a - b);
  num_add : forall a b, 0 <= a -> 0 <= b -> a + b < 2 ^ 53 -> nadd A (of_int A a) (of_int A b) = of_int A (a + b)
}.

(** The integers with a NaN, enough for posts whose numbers are decimal. *)
Definition int_numbers : numbers := {|
  num := option Z;
  of_str := fun s => match s with
                     | Some s => if is_number s then Some (dec_val s) else None
                     | None => None end;
  of_int := Some;
  nlt := fun a b => match a, b with Some a, Some b => a <? b | _, _ => false end;
  neq := fun a b => match a, b with Some a, Some b => a =? b | _, _ => false end;
  nsub := fun a b => match a, b with Some a, Some b => Some (a - b) | _, _ => None end;
  nadd := fun a b => match a, b with Some a, Some b => Some (a + b) | _, _ => None end
|}.

(** ** Outcomes *)

Inductive jserror :=
| TypeError
| ReferenceError
| ExceededParts        (** 'Exceeded number of specified yEnc parts' *)
| ExceededSize         (** 'Exceeded total file size' *)
| SizeMismatch         (** 'File size doesn't match total data length' *)
| NativeError.         (** thrown by the native module *)

(** [Bad]: the native code ran into undefined behaviour. *)
Inductive jsr (A : Type) : Type := Val (a : A) | Err (e : jserror) | Bad.
Arguments Val {A} a. Arguments Err {A} e. Arguments Bad {A}.

Definition jbind {A C} (x : jsr A) (f : A -> jsr C) : jsr C :=
  match x with Val a => f a | Err e => Err e | Bad => Bad end.
Notation "x <<- e ;; k" := (jbind e (fun x => k))
  (at level 61, e at next level, right associativity).
