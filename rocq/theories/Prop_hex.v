(** Properties C25, C26 and C27: hexadecimal float parsing and printing. *)
From Coq Require Import ZArith Reals Lia Lra Bool List String Ascii.
From Flocq Require Import Core.
From Verif Require Import Base Spec SpecHex Format M_hex P_format P_ieee P_hex4 P_hex5 P_hex6 P_hex7 P_hex8.
Import ListNotations.
Open Scope Z_scope.

Definition bytes (s : string) : list Z := map (fun c => Z.of_N (N_of_ascii c)) (list_ascii_of_string s).

(** ** C25: rounding *)
(** Full statement: every literal is parsed to its correctly rounded value. *)
Definition C25_full (F : fmt) : Prop :=
  forall s neg N k D ng r, hex_lit s neg N k D ng ->
  exists y ovf unf inx, parse_any s (width F) (mw F) r = Some (Ok (y, flags ovf unf inx)) /\
    rounds_in F (spec_mode r) neg (hex_mag N k D ng) y ovf unf inx.

(** What is missing: literals of 2^29 characters or more, written exponents of 2^32 or more, and magnitudes
    from [2^hex_lim F] on (2^49154 for f128, which is where the code first goes wrong; about 2^(2^31) for the others). *)
Theorem C25_parse_partial : forall F s neg N k D ng r, hex_lit s neg N k D ng ->
  4 * Z.of_nat (List.length s) < 2 ^ 31 -> D < 2 ^ 32 -> (hex_mag N k D ng < bpow radix2 (hex_lim F))%R ->
  exists y ovf unf inx, parse_any s (width F) (mw F) r = Some (Ok (y, flags ovf unf inx)) /\
    rounds_in F (spec_mode r) neg (hex_mag N k D ng) y ovf unf inx.
Proof. exact parse_any_ok. Qed.
Print Assumptions C25_parse_partial.
Example C25_lim : hex_lim f16 = 2 ^ 31 - 14 /\ hex_lim f32 = 2 ^ 31 - 126 /\ hex_lim f64 = 2 ^ 31 - 1022 /\ hex_lim f128 = 49154.
Proof. repeat split. Qed.

Lemma lit_p (e : list Z) (de : list Z) : Forall2 decdig e de -> de <> [] ->
  hex_lit ([48; 120; 49; 112] ++ e) false 1 0 (number 10 de) false.
Proof.
  intros H Hn. exists [], 120, ([49; 112] ++ e). split; [reflexivity|]. split; [constructor|]. split; [now left|].
  exists [49], [1], [], [], 112, [], e, de. split; [reflexivity|]. split; [constructor; [unfold hexdig; lia|constructor]|].
  split; [constructor|]. split; [discriminate|]. split; [now left|]. split; [constructor|]. split; [exact H|]. split; [exact Hn|]. repeat split.
Qed.

(** The full statement is false for f128: [0x1p49154] is read as the least normal number, with no flag raised. *)
Theorem C25_f128_refuted : ~ C25_full f128 /\
  hex_lit (bytes "0x1p49154") false 1 0 49154 false /\
  parse_any (bytes "0x1p49154") 128 112 Nearest = Some (Ok (2 ^ 112, 0)).
Proof.
  assert (L : hex_lit (bytes "0x1p49154") false 1 0 49154 false).
  { apply (lit_p (bytes "49154") [4; 9; 1; 5; 4]); [|discriminate]. cbn. unfold decdig. repeat constructor; lia. }
  assert (E : parse_any (bytes "0x1p49154") 128 112 Nearest = Some (Ok (2 ^ 112, 0))) by (vm_compute; reflexivity).
  split; [|split; [exact L|exact E]].
  intros H. destruct (H _ _ _ _ _ _ Nearest L) as (y & ovf & unf & inx & Ey & By & R).
  change (width f128) with 128 in Ey. change (mw f128) with 112 in Ey. rewrite E in Ey.
  assert (Y : y = 2 ^ 112) by congruence.
  assert (V : hex_mag 1 0 49154 false = bpow radix2 49154) by (unfold hex_mag; rewrite Rmult_1_l; reflexivity).
  cbn [spec_mode sval] in R. rewrite V in R.
  assert (G : rnd_in f128 ToNearest (bpow radix2 49154) = bpow radix2 49154).
  { unfold rnd_in. apply round_generic; [apply valid_rnd_N|]. apply generic_format_bpow. unfold FLT_exp. apply Z.max_lub; cbn; lia. }
  rewrite G in R. rewrite Rlt_bool_false in R.
  2:{ rewrite Rabs_pos_eq by apply bpow_ge_0. apply bpow_le. cbn. lia. }
  destruct R as (R1 & _). rewrite Y in R1. vm_compute in R1. discriminate R1.
Qed.
Print Assumptions C25_f128_refuted.

(** ** C25: which strings are accepted *)
Theorem C25_accept : forall F s r x, parse_any s (width F) (mw F) r = Some (Ok x) -> accepted s.
Proof. intros F s r x. apply accept_sound, config_F. Qed.
Print Assumptions C25_accept.
Theorem C25_reject : forall F s r e, parse_any s (width F) (mw F) r = Some (Err e) -> ~ accepted s.
Proof. intros F s r e. apply accept_complete, config_F. Qed.
Print Assumptions C25_reject.
Theorem C25_inf : forall F s neg r, inf_word s neg -> parse_any s (width F) (mw F) r = Some (Ok (infinity F neg, 0)).
Proof. exact parse_inf. Qed.
Print Assumptions C25_inf.
Theorem C25_nan : forall F s neg r, nan_word s neg ->
  exists y, parse_any s (width F) (mw F) r = Some (Ok (y, 0)) /\ isbits F y /\ isnan F y = true /\ signbit F y = neg.
Proof. exact parse_nan. Qed.
Print Assumptions C25_nan.

(** the exact parser: the value itself, or an error when no finite float has it *)
Theorem C25_exact_partial : forall F s neg N k D ng, hex_lit s neg N k D ng -> 4 * Z.of_nat (List.length s) < 2 ^ 31 -> D < 2 ^ 32 ->
  (hex_mag N k D ng < bpow radix2 (hex_lim F))%R ->
  (exists y, parse_hex_exact s (width F) (mw F) = Some (Ok y) /\ isbits F y /\ finite F y = true /\
     val F y = sval neg (hex_mag N k D ng) /\ signbit F y = neg) \/
  (exists e, parse_hex_exact s (width F) (mw F) = Some (Err e) /\
     forall y, isbits F y -> finite F y = true -> val F y <> sval neg (hex_mag N k D ng)).
Proof. exact parse_exact_ok. Qed.
Print Assumptions C25_exact_partial.
(** [hf16], [hf32], [hf64], [hf128]: a literal is accepted exactly when it denotes a float, and gives that float *)
Theorem C25_hf_partial : forall F s neg N k D ng, hex_lit s neg N k D ng -> 4 * Z.of_nat (List.length s) < 2 ^ 31 -> D < 2 ^ 32 ->
  (hex_mag N k D ng < bpow radix2 (hex_lim F))%R ->
  forall y, hf F s = Some y <-> isbits F y /\ finite F y = true /\ val F y = sval neg (hex_mag N k D ng) /\ signbit F y = neg.
Proof. exact hf_ok. Qed.
Print Assumptions C25_hf_partial.

(** pi needs rounding in f32; ties; subnormal sticky bits; overflow by mode; malformed strings *)
Example C25_ex1 : parse_any (bytes "0x1.921fb54442d18p+1") 32 23 Nearest = Some (Ok (0x40490fdb, 32)). Proof. vm_compute. reflexivity. Qed.
Example C25_ex2 : parse_any (bytes "0x1.921fb54442d18p+1") 32 23 Zero = Some (Ok (0x40490fda, 32)). Proof. vm_compute. reflexivity. Qed.
Example C25_ex3 : parse_any (bytes "-0x1.00000000000008p0") 64 52 Nearest = Some (Ok (0xbff0000000000000, 32)). Proof. vm_compute. reflexivity. Qed.
Example C25_ex4 : parse_any (bytes "0x0.80000000000000000000000000000000000001p-1074") 64 52 Nearest = Some (Ok (1, 48)). Proof. vm_compute. reflexivity. Qed.
Example C25_ex5 : parse_any (bytes "0x1p1024") 64 52 Nearest = Some (Ok (0x7ff0000000000000, 40)). Proof. vm_compute. reflexivity. Qed.
Example C25_ex6 : parse_any (bytes "0x1p1024") 64 52 Negative = Some (Ok (0x7fefffffffffffff, 40)). Proof. vm_compute. reflexivity. Qed.
Example C25_ex7 : parse_any (bytes "0x1.p") 64 52 Nearest = Some (Err NoExpDigit). Proof. vm_compute. reflexivity. Qed.
Example C25_ex8 : parse_any (bytes "0x1.2.3p0") 64 52 Nearest = Some (Err ExtraPoint). Proof. vm_compute. reflexivity. Qed.
Example C25_ex9 : hf f32 (bytes "0x1.921fb54442d18p+1") = None /\ hf f32 (bytes "0x1.921fb6p+1") = Some 0x40490fdb.
Proof. split; vm_compute; reflexivity. Qed.

(** ** C26: no panic *)
(** Full statement: every byte string gives [Ok] or [Err]. *)
Definition C26_full : Prop := forall s bits p r, 0 <= bits < 2 ^ 32 -> 0 <= p < 2 ^ 32 -> Forall (fun c => 0 <= c < 256) s ->
  exists res, parse_any s bits p r = Some res.

(** What is missing: texts of 2^27 bytes or more, exponent fields from 2^30 on, and [sig_bits = 0].
    [exp_field s] is the number written behind the first [p]. *)
Theorem C26_parse_partial : forall s bits p r, p <> 0 -> 0 <= p -> Z.of_nat (List.length s) < 2 ^ 27 -> exp_field s < 2 ^ 30 ->
  exists res, parse_any s bits p r = Some res.
Proof. exact parse_any_total. Qed.
Print Assumptions C26_parse_partial.
(** The code panics (in a build with overflow checks) on two short texts, and on an accepted format with [sig_bits = 0]. *)
Theorem C26_refuted : ~ C26_full /\ parse_any (bytes "0x1p4294967296") 64 52 Nearest = None /\
  parse_any (bytes "0x1p2147483647") 64 52 Nearest = None /\ parse_any (bytes "0x1p0") 8 0 Nearest = None.
Proof.
  assert (A : parse_any (bytes "0x1p4294967296") 64 52 Nearest = None) by (vm_compute; reflexivity).
  split; [|split; [exact A|split; vm_compute; reflexivity]].
  intros H. destruct (H (bytes "0x1p4294967296") 64 52 Nearest ltac:(lia) ltac:(lia)) as (res & E); [|congruence].
  cbn. repeat constructor; lia.
Qed.
Print Assumptions C26_refuted.
Example C26_ex1 : exp_field (bytes "0x1p536870912") = 536870912. Proof. vm_compute. reflexivity. Qed.
Example C26_ex2 : parse_any (bytes "0x1p536870912") 64 52 Nearest = Some (Ok (0x7ff0000000000000, 40)). Proof. vm_compute. reflexivity. Qed.
Example C26_ex3 : parse_any (bytes "0x1p-536870912") 64 52 Nearest = Some (Ok (0, 48)). Proof. vm_compute. reflexivity. Qed.
Example C26_ex4 : parse_any (bytes "") 64 52 Nearest = Some (Err NoIndicator). Proof. vm_compute. reflexivity. Qed.

(** ** C27: printing and reading back *)
Theorem C27_roundtrip : forall F x r, isbits F x -> exists s, fmt_any_hex F x = Some s /\
  (isnan F x = false -> parse_any s (width F) (mw F) r = Some (Ok (x, 0))) /\
  (isnan F x = true -> exists y, parse_any s (width F) (mw F) r = Some (Ok (y, 0)) /\ isbits F y /\ isnan F y = true /\ signbit F y = signbit F x).
Proof. exact fmt_roundtrip. Qed.
Print Assumptions C27_roundtrip.
(** and the text of a finite nonzero number is a literal of exactly its value *)
Theorem C27_literal : forall F x, isbits F x -> finite F x = true -> iszero F x = false ->
  exists s N k D ng, fmt_any_hex F x = Some s /\ hex_lit s (signbit F x) N k D ng /\ sval (signbit F x) (hex_mag N k D ng) = val F x.
Proof.
  intros F x Hx Hf Hz. destruct (fmt_finite F x Hx Hf Hz) as (s & N & k & D & ng & E & L & M & _).
  exists s, N, k, D, ng. split; [exact E|]. split; [exact L|]. rewrite M. reflexivity.
Qed.
Print Assumptions C27_literal.
Example C27_ex1 : fmt_any_hex f64 0x400921fb54442d18 = Some (bytes "0x1.921fb54442d18p+1"). Proof. vm_compute. reflexivity. Qed.
Example C27_ex2 : fmt_any_hex f32 0x80000001 = Some (bytes "-0x0.000002p-126"). Proof. vm_compute. reflexivity. Qed.
Example C27_ex3 : fmt_any_hex f16 0x8000 = Some (bytes "-0x0p+0"). Proof. vm_compute. reflexivity. Qed.
Example C27_ex4 : fmt_any_hex f64 0xfff8000000000000 = Some (bytes "-NaN"). Proof. vm_compute. reflexivity. Qed.
