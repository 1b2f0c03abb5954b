(** Model of the hexadecimal float parser and printer, libm/src/math/support/hex_float.rs.

    A string is the list of its bytes.  [None] is a panic of a debug build, [Some (Err _)] a
    returned error (one constructor per message of the source), [Some (Ok _)] a result. *)
From Coq Require Import ZArith Bool List.
From Verif Require Import Base Spec Format Ieee.
Import ListNotations.
Open Scope Z_scope.

(** hex_float.rs 42 [HexFloatParseError], by message *)
Inductive hexerr := TooHuge | TooTiny | TooPrecise | BadConfig | NoIndicator | ExtraPoint | BadDigit | NoDigit
  | BadExpDigit | NoExpDigit.
Inductive result (A : Type) := Ok (a : A) | Err (e : hexerr).
Arguments Ok {A}. Arguments Err {A}.

(** env.rs 37-46 [Round] *)
Inductive Round := Nearest | Negative | Positive | Zero.
(** env.rs 50-89 [Status], bits of a byte *)
Definition ST_OK := 0.
Definition ST_OVERFLOW := 8.
Definition ST_UNDERFLOW := 16.
Definition ST_INEXACT := 32.
(** env.rs 124-126 [with], 92-110 the accessors *)
Definition st_with (a b : Z) := Z.lor a b.
Definition st_has (a b : Z) := negb (Z.land a b =? 0).

(** lines 327-332 [dec_digit], 334-341 [hex_digit] *)
Definition dec_digit (c : Z) : option Z := if (48 <=? c) && (c <=? 57) then Some (c - 48) else None.
Definition hex_digit (c : Z) : option Z :=
  if (48 <=? c) && (c <=? 57) then Some (c - 48)
  else if (97 <=? c) && (c <=? 102) then Some (c - 97 + 10)
  else if (65 <=? c) && (c <=? 70) then Some (c - 65 + 10)
  else None.

(** lines 346-349 [u128_ilog2]; the assertion [v != 0] is a panic *)
Definition u128_ilog2 (v : Z) : option Z :=
  if v =? 0 then None else let* a := usub 32 128 1 in usub 32 a (lzcnt 128 v).

(** lines 187-199 [shr_odd_rounding] *)
Fixpoint pos_tz (p : positive) : Z := match p with xO q => 1 + pos_tz q | _ => 0 end.
Definition tzcnt128 (x : Z) : Z := match x with Zpos p => pos_tz p | _ => 128 end.
Definition shr_odd_rounding (x k : Z) : option Z :=
  if k <? 128 then
    let inexact := tzcnt128 x <? k in
    let* a := ushr 128 x k in
    Some (Z.lor a (Z.b2z inexact))
  else Some (Z.b2z (negb (x =? 0))).

(** lines 201-213 [shr2_round] *)
Definition shr2_round (x : Z) (round : Round) : option Z :=
  let t := Z.land (to_u 32 x) 7 in
  let* x := ushr 128 x 2 in
  match round with
  | Nearest => let* a := ushr 8 200 t in uadd 128 x (Z.land a 1)
  | Negative => Some x
  | Zero => Some x
  | Positive => uadd 128 x (Z.b2z (negb (Z.land t 3 =? 0)))
  end.

(** lines 233-269: the loop over the hexadecimal digits.  The state is
    [(sig, exp, seen_point, some_digits, inexact)]; the result also has the rest of the bytes. *)
Definition dstate := (Z * Z * bool * bool * bool)%type.
Fixpoint digits_loop (b : list Z) (s : dstate) : option (result (list Z * dstate)) :=
  match b with
  | [] => Some (Ok ([], s))
  | c :: rest =>
    let '(sig, exp, seen_point, some_digits, inexact) := s in
    if c =? 46 (* '.' *) then
      if seen_point then Some (Err ExtraPoint)
      else digits_loop rest (sig, exp, true, some_digits, inexact)
    else if (c =? 112) || (c =? 80) (* 'p' | 'P' *) then Some (Ok (rest, s))
    else
      match hex_digit c with
      | None => Some (Err BadDigit)
      | Some digit =>
        let some_digits := true in
        let* top := ushr 128 sig 124 in
        let* (sig, exp, inexact) :=
          if top =? 0 then
            let* t := ushl 128 sig 4 in
            Some (Z.lor t digit, exp, inexact)
          else
            let* e := sadd 32 exp 4 in
            Some (sig, e, inexact || negb (digit =? 0)) in
        let* exp := if seen_point then ssub 32 exp 4 else Some exp in
        digits_loop rest (sig, exp, seen_point, some_digits, inexact)
      end
  end.

(** lines 288-297: the loop over the exponent digits; [saturating_mul] then a checked [+=]. *)
Fixpoint exp_loop (b : list Z) (pexp : Z) (some_digits : bool) : option (result (Z * bool)) :=
  match b with
  | [] => Some (Ok (pexp, some_digits))
  | c :: rest =>
    match dec_digit c with
    | None => Some (Err BadExpDigit)
    | Some digit =>
      let pexp := Z.min (pexp * 10) (2 ^ 32 - 1) in
      let* pexp := uadd 32 pexp digit in
      exp_loop rest pexp true
    end
  end.

(** ['-' ..] and the removal of one leading sign (lines 281-284, also 73-76) *)
Definition starts_minus (b : list Z) : bool := match b with c :: _ => c =? 45 | [] => false end.
Definition strip_sign (b : list Z) : list Z :=
  match b with c :: rest => if (c =? 45) || (c =? 43) then rest else b | [] => b end.

(** lines 223-325 [parse_hex] *)
Definition parse_hex (b : list Z) : option (result (Z * Z)) :=
  let* r := digits_loop b (0, 0, false, false, false) in
  match r with
  | Err e => Some (Err e)
  | Ok (b, (sig, exp, seen_point, some_digits, inexact)) =>
    let sig := Z.lor sig (Z.b2z inexact) in
    if negb some_digits then Some (Err NoDigit) else
    let negate_exp := starts_minus b in
    let b := strip_sign b in
    let* r := exp_loop b 0 false in
    match r with
    | Err e => Some (Err e)
    | Ok (pexp, some_digits) =>
      if negb some_digits then Some (Err NoExpDigit) else
      let* e := if negate_exp then ssub 64 exp pexp else sadd 64 exp pexp in
      let exp := if e <? - 2 ^ 31 then - 2 ^ 31
                 else if 2 ^ 31 - 1 <? e then 2 ^ 31 - 1 else e in
      Some (Ok (sig, exp))
    end
  end.

(** lines 109-185 [parse_finite].  [as u128] of a non-negative [i32] is its value; a negative one
    is sign-extended. *)
Definition parse_finite (b : list Z) (bits sig_bits : Z) (rounding_mode : Round) : option (result (Z * Z)) :=
  let* t := usub 32 bits sig_bits in
  let* exp_bits := usub 32 t 1 in
  let* t := usub 32 exp_bits 1 in
  let* t := ushl 32 1 t in
  let* max_msb := ssub 32 (to_i 32 t) 1 in
  let* t := ssub 32 1 max_msb in
  let* min_lsb := ssub 32 t (to_i 32 sig_bits) in
  let* r := parse_hex b in
  match r with
  | Err e => Some (Err e)
  | Ok (sig, exp) =>
    if sig =? 0 then Some (Ok (0, ST_OK)) else
    let* l := u128_ilog2 sig in
    let* round_bits := ssub 32 (to_i 32 l) (to_i 32 sig_bits) in
    let* lim := ssub 32 min_lsb round_bits in
    let* round_bits := if exp <? lim then ssub 32 min_lsb exp else Some round_bits in
    let status := ST_OK in
    let* exp := sadd 32 exp round_bits in
    let* (sig, status) :=
      if 0 <? round_bits then
        let* sig := if round_bits =? 1 then ushl 128 sig 1
                    else if 2 <? round_bits then
                      let* k := ssub 32 round_bits 2 in shr_odd_rounding sig (to_u 32 k)
                    else Some sig in
        let status := if negb (Z.land sig 3 =? 0) then ST_INEXACT else status in
        let* sig := shr2_round sig rounding_mode in
        Some (sig, status)
      else if round_bits <? 0 then
        let* n := sneg 32 round_bits in
        let* sig := ushl 128 sig n in
        Some (sig, status)
      else Some (sig, status) in
    let* d := ssub 32 exp min_lsb in
    let uexp := to_u 128 d in
    let* uexp := ushl 128 uexp sig_bits in
    let* two := ushl 128 2 sig_bits in
    if negb (sig <=? two) then None else
    let* t := ushl 128 1 exp_bits in
    let* t := usub 128 t 1 in
    let* inf := ushl 128 t sig_bits in
    let* one := ushl 128 1 sig_bits in
    let overflow :=
      let status := st_with (st_with status ST_OVERFLOW) ST_INEXACT in
      let* r := match rounding_mode with
                | Positive | Nearest => Some inf
                | Negative | Zero => usub 128 inf 1
                end in
      Some (Ok (r, status)) in
    match uadd 128 sig uexp (* checked_add *) with
    | Some b =>
      if b <? inf then
        let status := if st_has status ST_INEXACT && (b <? one) then st_with status ST_UNDERFLOW else status in
        Some (Ok (b, status))
      else overflow
    | None => overflow
    end
  end.

(** lines 61-107 [parse_any] *)
Definition parse_any (b : list Z) (bits sig_bits : Z) (round : Round) : option (result (Z * Z)) :=
  if (119 <? sig_bits) || (128 <? bits) || (bits <? sig_bits + 3) || (sig_bits + 30 <? bits)
  then Some (Err BadConfig) else
  let neg := starts_minus b in
  let b := strip_sign b in
  let* t := usub 32 bits 1 in
  let* sign_bit := ushl 128 1 t in
  let* t := usub 32 sig_bits 1 in
  let* quiet_bit := ushl 128 1 t in
  let* nan := usub 128 sign_bit quiet_bit in
  let* inf := usub 128 nan quiet_bit in
  let isc c lo up := (c =? lo) || (c =? up) in
  let finish (r : result (Z * Z)) : option (result (Z * Z)) :=
    match r with
    | Err e => Some (Err e)
    | Ok (x, status) => Some (Ok (if neg then Z.lxor x sign_bit else x, status))
    end in
  let hex :=
    match b with
    | c0 :: c1 :: rest =>
      if (c0 =? 48) && isc c1 120 88 (* 0x *) then
        let round := match neg, round with
                     | true, Positive => Negative
                     | true, Negative => Positive
                     | _, r => r
                     end in
        let* r := parse_finite rest bits sig_bits round in
        finish r
      else Some (Err NoIndicator)
    | _ => Some (Err NoIndicator)
    end in
  match b with
  | [c0; c1; c2] =>
    if isc c0 105 73 && isc c1 110 78 && isc c2 102 70 (* inf *) then finish (Ok (inf, ST_OK))
    else if isc c0 110 78 && isc c1 97 65 && isc c2 110 78 (* nan *) then finish (Ok (nan, ST_OK))
    else hex
  | _ => hex
  end.

(** lines 45-59 [parse_hex_exact]; [unreachable!] is a panic *)
Definition parse_hex_exact (b : list Z) (bits sig_bits : Z) : option (result Z) :=
  let* r := parse_any b bits sig_bits Nearest in
  match r with
  | Err e => Some (Err e)
  | Ok (x, status) =>
    if status =? ST_OK then Some (Ok x)
    else if st_has status ST_OVERFLOW then Some (Err TooHuge)
    else if st_has status ST_UNDERFLOW then Some (Err TooTiny)
    else if st_has status ST_INEXACT then Some (Err TooPrecise)
    else None
  end.

(** lines 8-40 [hf16 hf32 hf64 hf128]: the [as u16] etc. truncation and [from_bits]; an error
    is a panic. *)
Definition hf (F : fmt) (b : list Z) : option Z :=
  let* r := parse_hex_exact b (BITS F) (SIG_BITS F) in
  match r with Ok x => Some (to_u (BITS F) x) | Err _ => None end.
Definition hf16 := hf f16.
Definition hf32 := hf f32.
Definition hf64 := hf f64.
Definition hf128 := hf f128.

(** ** Formatting.  [core::fmt] is not part of this project; the three conversions used are
    modelled directly: lower-case hexadecimal with zero padding ([{:0w$x}]) and decimal with an
    explicit sign ([{:+}]). *)
Definition digit_char (d : Z) : Z := if d <? 10 then 48 + d else 87 + d.
Fixpoint digits_rev (fuel : nat) (base n : Z) : list Z :=
  match fuel with
  | O => []
  | S k => n mod base :: (if n <? base then [] else digits_rev k base (n / base))
  end.
Definition fmt_radix (base n : Z) : list Z :=
  map digit_char (rev (digits_rev (S (Z.to_nat (Z.log2 n))) base n)).
Definition pad_left (w : nat) (l : list Z) : list Z := repeat 48 (w - length l) ++ l.
Definition fmt_signed (n : Z) : list Z := (if n <? 0 then 45 else 43) :: fmt_radix 10 (Z.abs n).

(** lines 356-387 [fmt_any_hex] *)
Definition fmt_any_hex (F : fmt) (x : Z) : option (list Z) :=
  let sgn := if is_sign_negative F x then [45] else [] in
  if is_nan F x then Some (sgn ++ [78; 97; 78])
  else if is_infinite F x then Some (sgn ++ [105; 110; 102])
  else if feq F x (ZERO) then Some (sgn ++ [48; 120; 48; 112; 43; 48])
  else
    let* exponent := exp_unbiased F x in
    let sig := Z.land x (SIG_MASK F) in
    let bias := to_i 32 (EXP_BIAS F) in
    let* t := usub 32 4 (SIG_BITS F mod 4) in
    let mshift := t mod 4 in
    let* sig := ushl (BITS F) sig mshift in
    let* t := uadd 64 (SIG_BITS F) 3 in
    let mwidth := t / 4 in
    let* nb := sneg 32 bias in
    let* (exponent, leading) :=
      if exponent =? nb then let* e := sadd 32 exponent 1 in Some (e, [48; 46])
      else Some (exponent, [49; 46]) in
    Some (sgn ++ [48; 120] ++ leading ++ pad_left (Z.to_nat mwidth) (fmt_radix 16 sig)
          ++ [112] ++ fmt_signed exponent).
