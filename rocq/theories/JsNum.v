(** JavaScript numbers where rounding matters: minSize and maxSize of /repo/index.js
    computed in binary64.

    A finite number is a rational; each operation is the exact one followed by [fl],
    rounding to nearest, ties to even, with 53 bits and least exponent -1074 (ECMA-262,
    Number::add, multiply, divide).  Simplified: no infinities, NaN or -0; they do not arise
    from the lengths, line sizes and ratios considered. *)
From Coq Require Import QArith Qround ZArith Bool.
Open Scope Z_scope.

(** Nearest integer, ties to even. *)
Definition nearest (x : Q) : Z :=
  let f := Qfloor x in
  match Qcompare (x - inject_Z f) (1 # 2) with
  | Lt => f
  | Gt => f + 1
  | Eq => if Z.even f then f else f + 1
  end.

Definition pow2 (e : Z) : Q := Qpower 2 e.

(** For [x > 0], the [e] with [2^e <= x < 2^(e+1)]. *)
Definition ilog (x : Q) : Z :=
  let e := Z.log2 (Qnum x) - Z.log2 (Zpos (Qden x)) in
  if Qle_bool (pow2 e) x then e else e - 1.

(** Rounding to binary64. *)
Definition fl_pos (x : Q) : Q :=
  let e := Z.max (ilog x) (-1022) in
  Qmult (inject_Z (nearest (Qmult x (pow2 (52 - e))))) (pow2 (e - 52)).
Definition fl (x : Q) : Q :=
  match Qcompare x 0 with
  | Eq => 0%Q
  | Gt => fl_pos x
  | Lt => Qopp (fl_pos (Qopp x))
  end.

Definition js_add (x y : Q) : Q := fl (x + y).
Definition js_mul (x y : Q) : Q := fl (x * y).
Definition js_div (x y : Q) : Q := fl (x / y).
Definition js_floor (x : Q) : Q := inject_Z (Qfloor x).
Definition js_ceil (x : Q) : Q := inject_Z (Qceiling x).

(** "line_size||128" *)
Definition js_line (line_size : Q) : Q := if Qeq_bool line_size 0 then inject_Z 128 else line_size.

(** /repo/index.js lines 171-175: minSize. *)
Definition num_minSize (length line_size : Q) : Q :=
  if Qeq_bool length 0 then 0%Q
  else js_add length (js_mul 2 (js_floor (js_div length (js_line line_size)))).

(** /repo/index.js lines 176-189: maxSize.  No ratio (undefined) is [None]; the result
    [None] is the exception of line 183. *)
Definition num_maxSize (length line_size : Q) (esc_ratio : option Q) : option Q :=
  if Qeq_bool length 0 then Some 0%Q
  else
    let r := match esc_ratio with None => inject_Z 2 | Some r => js_add r 1 end in
    if negb (Qle_bool 1 r) || negb (Qle_bool r 2) then None
    else
      let chars := js_mul length r in
      Some (js_add (js_add (js_add (js_ceil chars) (js_mul 2 (js_floor (js_div chars (js_line line_size))))) 2) (inject_Z 64)).
