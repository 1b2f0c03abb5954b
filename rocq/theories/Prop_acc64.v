(** C45, C46: accuracy of the double precision sine and cosine, and of their argument reduction.

    [faithful_fn F f g] (SpecAcc.v) says that [f] returns, for every finite argument, one of the two floats of the format next to the true value of [g] there, the real functions and the number pi being those of the standard library. *)
From Coq Require Import ZArith Reals Lia Lra Bool List.
From Flocq Require Import Core.
From Verif Require Import Base Spec SpecAcc Format P_format Ieee M_rempio2 M_trig P_elem P_neg P_lit P_ival P_ival2 P_sc P_red64 P_red64b P_red64d P_trig64.
Open Scope Z_scope.

Theorem C45_sin : faithful_fn f64 rs_sin sin.
Proof. exact sin_faithful. Qed.
Print Assumptions C45_sin.
(** sin 1.0, sin 1e22, and the double closest to a multiple of pi/2: 6381956970095103 * 2^797 *)
Example C45_sin_example : rs_sin 0x3ff0000000000000 = Some 0x3feaed548f090cee /\ rs_sin 0x4480f0cf064dd592 = Some 0xbfeb453ab76bf397 /\ rs_sin 0x7506ac5b262ca1ff = Some 0x3ff0000000000000.
Proof. vm_compute. repeat split. Qed.

Theorem C45_cos : faithful_fn f64 rs_cos cos.
Proof. exact cos_faithful. Qed.
Print Assumptions C45_cos.
Example C45_cos_example : rs_cos 0x3ff0000000000000 = Some 0x3fe14a280fb5068c /\ rs_cos 0x7506ac5b262ca1ff = Some 0xbc214ae72e6ba22f.
Proof. vm_compute. split; reflexivity. Qed.

Theorem C45_sincos x : isbits f64 x -> finite f64 x = true ->
  exists s c, rs_sincos x = Some (s, c) /\ faithful f64 (sin (val f64 x)) s /\ faithful f64 (cos (val f64 x)) c.
Proof.
  intros B F. destruct (sincos_ok x B) as (s & c & E & Es & Ec). exists s, c. split; [exact E|].
  destruct (sin_faithful x B F) as (s' & Es' & Hs). destruct (cos_faithful x B F) as (c' & Ec' & Hc). rewrite Es in Es'. rewrite Ec in Ec'. injection Es' as <-. injection Ec' as <-. now split.
Qed.
Print Assumptions C45_sincos.
Example C45_sincos_example : rs_sincos 0x3ff0000000000000 = Some (0x3feaed548f090cee, 0x3fe14a280fb5068c).
Proof. vm_compute. reflexivity. Qed.

(** The reduction returns the quadrant and two doubles whose sum is within relative error 2^-64 of the true remainder; [b] is the pointer width, which selects the length of the table of 2/pi. *)
Theorem C46_rem_pio2 b x : isbits f64 x -> finite f64 x = true -> (0.7854 <= Rabs (val f64 x))%R ->
  exists n y0 y1 k, rs_rem_pio2_gen b x = Some (n, y0, y1) /\ k mod 8 = n mod 8 /\ isbits f64 y0 /\ finite f64 y0 = true /\ isbits f64 y1 /\ finite f64 y1 = true /\
    let r := (val f64 x - IZR k * (PI / 2))%R in
    (Rabs (val f64 y0) <= 0.78542 /\ Rabs (val f64 y1) <= 9 / 4 * bpow radix2 (-53) * Rabs (val f64 y0) /\ Rabs (val f64 y0 + val f64 y1 - r) <= bpow radix2 (-64) * Rabs (val f64 y0))%R.
Proof.
  intros B F H. pose proof (fin_hi x B F) as FH.
  assert (L : 0x3fe921fc <= a64 x / 2 ^ 32).
  { destruct (Z_lt_le_dec (a64 x / 2 ^ 32) 0x3fe921fc) as [Q | Q]; [exfalso|exact Q]. apply div32 in Q. destruct (absval64 0 0x3fe921fc00000000 x B ltac:(lia) ltac:(pose proof (a64_nn x); lia) ltac:(lia)) as [_ A]. rewrite l_pio4 in A. lra. }
  destruct (rem_pio2_red b x B ltac:(lia)) as (n & y0 & y1 & k & E & (B0 & F0 & B1 & F1 & E1 & E2 & E3) & M & _). exists n, y0, y1, k.
  repeat (split; [assumption|]). cbv zeta. split; [exact (proj2 E3)|]. split; [exact E2|exact E1].
Qed.
Print Assumptions C46_rem_pio2.
(** the hardest double lies about 2^-60.9 above a multiple of pi/2; 5.0 lies about 0.2876 above 3 pi/2 *)
Example C46_rem_pio2_example : rs_rem_pio2_gen false 0x7506ac5b262ca1ff = Some (5, 0x3c214ae72e6ba22f, 0xb8973f0853f8ab5f) /\ rs_rem_pio2_gen true 0x4014000000000000 = Some (3, 0x3fd268380ccde2dd, 0xbc73c9ca65000000).
Proof. vm_compute. split; reflexivity. Qed.
