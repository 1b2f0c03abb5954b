(** Model of the generic square root (libm/src/math/generic/sqrt.rs).  Only the value of [FpResult] is kept.
    [a.widen_mul(b).hi()] is the high half of the exact product (theorems C39 and C23 prove the integer traits
    return it). *)
From Coq Require Import ZArith Bool List.
From Verif Require Import Base Spec Format Ieee.
Import ListNotations.
Open Scope Z_scope.

(** lines 349-366 *)
Definition RSQRT_TAB : list Z :=
  [
   0xb451; 0xb2f0; 0xb196; 0xb044; 0xaef9; 0xadb6; 0xac79; 0xab43;
   0xaa14; 0xa8eb; 0xa7c8; 0xa6aa; 0xa592; 0xa480; 0xa373; 0xa26b;
   0xa168; 0xa06a; 0x9f70; 0x9e7b; 0x9d8a; 0x9c9d; 0x9bb5; 0x9ad1;
   0x99f0; 0x9913; 0x983a; 0x9765; 0x9693; 0x95c4; 0x94f8; 0x9430;
   0x936b; 0x92a9; 0x91ea; 0x912e; 0x9075; 0x8fbe; 0x8f0a; 0x8e59;
   0x8daa; 0x8cfe; 0x8c54; 0x8bac; 0x8b07; 0x8a64; 0x89c4; 0x8925;
   0x8889; 0x87ee; 0x8756; 0x86c0; 0x862b; 0x8599; 0x8508; 0x8479;
   0x83ec; 0x8361; 0x82d8; 0x8250; 0x81c9; 0x8145; 0x80c2; 0x8040;
   0xff02; 0xfd0e; 0xfb25; 0xf947; 0xf773; 0xf5aa; 0xf3ea; 0xf234;
   0xf087; 0xeee3; 0xed47; 0xebb3; 0xea27; 0xe8a3; 0xe727; 0xe5b2;
   0xe443; 0xe2dc; 0xe17a; 0xe020; 0xdecb; 0xdd7d; 0xdc34; 0xdaf1;
   0xd9b3; 0xd87b; 0xd748; 0xd61a; 0xd4f1; 0xd3cd; 0xd2ad; 0xd192;
   0xd07b; 0xcf69; 0xce5b; 0xcd51; 0xcc4a; 0xcb48; 0xca4a; 0xc94f;
   0xc858; 0xc764; 0xc674; 0xc587; 0xc49d; 0xc3b7; 0xc2d4; 0xc1f4;
   0xc116; 0xc03c; 0xbf65; 0xbe90; 0xbdbe; 0xbcef; 0xbc23; 0xbb59;
   0xba91; 0xb9cc; 0xb90a; 0xb84a; 0xb78c; 0xb6d0; 0xb617; 0xb560
  ].
(** indexing panics out of bounds *)
Definition tab_get (l : list Z) (i : Z) : option Z := nth_error l (Z.to_nat i).

(** lines 296-343: the constants of [SqrtHelper] for one format: the widths of [ISet1] and [ISet2] and the
    numbers of rounds *)
Record sqrt_cfg := Cfg { set1 : Z; set2 : Z; rounds1 : nat; rounds2 : nat; rounds3 : nat }.
Definition cfg16 : sqrt_cfg := Cfg 16 16 0 0 2.
Definition cfg32 : sqrt_cfg := Cfg 32 32 0 0 3.
Definition cfg64 : sqrt_cfg := Cfg 32 32 0 2 2.
Definition cfg128 : sqrt_cfg := Cfg 32 64 1 2 2.

(** lines 237-239 *)
Definition wmulh (w a b : Z) : Z := a * b / 2 ^ w.

(** lines 252-286; [k] rounds are left, [i] is the loop counter *)
Fixpoint gold_loop (w : Z) (final : bool) (count i : Z) (k : nat) (r s u : Z) : option (Z * Z) :=
  match k with
  | O => Some (r, s)
  | S k =>
    let* three_u2 := ushl w 3 (w - 2) in
    let s := wmulh w s u in
    let* s := (if (0 <? i) && (negb final || (i + 1 <? count)) then ushl w s 1 else Some s) in
    let d := wmulh w s r in
    let u := wsub w three_u2 d in
    let* r := ushl w (wmulh w r u) 1 in
    gold_loop w final count (i + 1) k r s u
  end.
Definition goldschmidt (w : Z) (r s : Z) (count : nat) (final : bool) : option (Z * Z) :=
  let* three_u2 := ushl w 3 (w - 2) in
  gold_loop w final (Z.of_nat count) 0 count r s r.

Section Sqrt.
Variable F : fmt.
Variable C : sqrt_cfg.
Let w := BITS F.

(** lines 73-121: [Early] is an early return, [Go] the pattern [ix] after the
    scaling of subnormals and, for the shifted representation, [top] *)
Inductive sqrt_start := Early (r : Z) | Go (ix top : Z).
Definition noshift : bool := BITS F <=? 32.
Definition sqrt_entry (x : Z) : option sqrt_start :=
  let ix := x in
  let* ts :=
    (if noshift then
       let* exp_lsb := ushl w 1 (SIG_BITS F) in
       let* lim := usub w (EXP_MASK F) exp_lsb in
       Some (0, lim <=? wsub w ix exp_lsb)
     else
       let* t := ushr w ix (SIG_BITS F) in
       let* top := ucast 32 t in
       let* lim := usub 32 (EXP_SAT F) 1 in
       Some (top, lim <=? wsub 32 top 1)) in
  let (top, special_case) := ts in
  if special_case then
    let* ix2 := ushl w ix 1 in
    if ix2 =? 0 then Some (Early x)
    else if ix =? EXP_MASK F then Some (Early x)
    else if EXP_MASK F <? ix then Some (Early (NAN F))
    else
      let* e := uadd 32 (SIG_BITS F) (EXP_BIAS F) in
      let* p := from_parts F false e 0 in
      let scaled := fmul F x p in
      let ix := scaled in
      if noshift then
        let* k := ushl 32 (SIG_BITS F) (SIG_BITS F) in
        let* k := ucast w k in
        Some (Go (wsub w ix k) top)
      else
        let* v := ex F scaled in
        Some (Go ix (wsub 32 v (SIG_BITS F)))
  else Some (Go ix top).

(** lines 123-155: (m_u2, exponent contribution); for the shifted representation the exponent is placed by
    lines 210-213 *)
Definition sqrt_reduce (ix top : Z) : option (Z * Z) :=
  if noshift then
    let* lsb := ushl w 1 (SIG_BITS F) in
    let even := negb (Z.land ix lsb =? 0) in
    let* e := ushr w ix 1 in
    let* h := ushr w (SIGN_MASK F) 1 in
    let* c := ushr w (Z.lxor (EXP_MASK F) h) 1 in
    let* e := uadd w e c in
    let e := Z.land e (EXP_MASK F) in
    let* a1 := ushl w ix (EXP_BITS F) in
    let m1 := Z.lor a1 (SIGN_MASK F) in
    let* a0 := ushl w ix (EXP_BITS F - 1) in
    let m0 := Z.land a0 (unot w (SIGN_MASK F)) in
    Some (if even then m0 else m1, e)
  else
    let e := top in
    let* m := ushl w (Z.lor ix (IMPLICIT_BIT F)) (EXP_BITS F) in
    let even := negb (Z.land e 1 =? 0) in
    let* m := (if even then ushr w m 1 else Some m) in
    let* c := ushr 32 (EXP_SAT F) 1 in
    let* e := ushr 32 (wadd 32 e c) 1 in
    Some (m, e).

(** lines 157-176: the three sets of iterations; the result is [s], in U3 *)
Definition sqrt_iter (ix m_u2 : Z) : option Z :=
  let* t := ushr w ix (SIG_BITS F - 6) in
  let i := Z.land t 127 in
  let* tab := tab_get RSQRT_TAB i in
  let* r1 := ushl (set1 C) tab (set1 C - 16) in
  let* t1 := ushr w m_u2 (w - set1 C) in
  let* s1 := ucast (set1 C) t1 in
  let* rs := goldschmidt (set1 C) r1 s1 (rounds1 C) false in
  let r1 := fst rs in
  let* r2 := ushl (set2 C) r1 (set2 C - set1 C) in
  let* t2 := ushr w m_u2 (w - set2 C) in
  let* s2 := ucast (set2 C) t2 in
  let* rs := goldschmidt (set2 C) r2 s2 (rounds2 C) false in
  let r2 := fst rs in
  let* r := ushl w r2 (w - set2 C) in
  let* rs := goldschmidt w r m_u2 (rounds3 C) true in
  Some (snd rs).

(** lines 178-233 *)
Definition sqrt_finish (s_u2 m_u2 e : Z) : option Z :=
  let* m := ushr w s_u2 (EXP_BITS F - 2) in
  let* b2 := usub 32 (BITS F) 2 in
  let* shift := usub 32 (2 * SIG_BITS F) b2 in
  let* ms := ushl w m_u2 shift in
  let d0 := wsub w ms (wmul w m m) in
  let d1 := wsub w m d0 in
  let* c := ushr w d1 (BITS F - 1) in
  let* m := uadd w m c in
  let m := Z.land m (SIG_MASK F) in
  let* m :=
    (if noshift then Some (Z.lor m e)
     else
       let* ei := ucast w e in
       let* es := ushl w ei (SIG_BITS F) in
       Some (Z.lor m es)) in
  let y := m in
  if 16 <? BITS F then
    let d2 := wadd w (wadd w d1 m) 1 in
    let tiny := if d2 =? 0 then 0 else IMPLICIT_BIT F in
    let tiny := Z.lor tiny (Z.land (Z.lxor d1 d2) (SIGN_MASK F)) in
    Some (fadd F y tiny)
  else Some y.

(** lines 48-59 and 62-234 *)
Definition sqrt_round (x : Z) : option Z :=
  let* st := sqrt_entry x in
  match st with
  | Early r => Some r
  | Go ix top =>
    let* me := sqrt_reduce ix top in
    let (m_u2, e) := me in
    let* s_u2 := sqrt_iter ix m_u2 in
    sqrt_finish s_u2 m_u2 e
  end.
End Sqrt.

(** sqrt.rs 4-50: the software paths *)
Definition sqrtf16 (x : Z) : option Z := sqrt_round f16 cfg16 x.
Definition sqrtf (x : Z) : option Z := sqrt_round f32 cfg32 x.
Definition sqrt (x : Z) : option Z := sqrt_round f64 cfg64 x.
Definition sqrtf128 (x : Z) : option Z := sqrt_round f128 cfg128 x.
