(** Property C38: the argument reduction modulo pi/2 never indexes outside its tables and never overflows its integer state.

    In the model every array access is checked ([arr_get], [arr_set], [tab_get] in M_elib return [None] when the index is out of
    range), every integer operation of the source that panics on overflow returns [None] when it overflows, and every loop has
    fuel and returns [None] when it runs out. [Some _] therefore says that none of this happens. The release build uses
    [get_unchecked] for these accesses (mod.rs 7-32), so the theorems below are also what memory safety of that code rests on.

    [ptr64] selects between the two lengths of the table of 2/pi (rem_pio2_large.rs 31-115). *)
From Coq Require Import ZArith Reals Lia Lra Bool List.
From Flocq Require Import Core.
From Verif Require Import Base Spec SpecFun Format P_format Ieee M_basic M_scalbn M_elib M_rempio2 M_trig P_ieee P_elem P_elem2 P_tot P_cf P_fx P_rpl P_rpl2 P_rpl3 P_rpl4 P_rem.
Import ListNotations.
Open Scope Z_scope.
Open Scope fl_scope.

(** ** The reductions *)
Theorem C38_rem_pio2 ptr64 x : isbits f64 x -> rs_rem_pio2_gen ptr64 x <> None.
Proof. intros B. destruct (rem_pio2_total ptr64 x B) as (n & a & c & ->). discriminate. Qed.
Theorem C38_rem_pio2f ptr64 x : isbits f32 x -> rs_rem_pio2f_gen ptr64 x <> None.
Proof. intros B. destruct (rem_pio2f_total ptr64 x B) as (n & a & ->). discriminate. Qed.

(** The quadrant returned by the multi-word reduction is within -7 .. 7, so that negating it cannot overflow either. *)
Theorem C38_rem_pio2_huge_quadrant ptr64 x s : isbits f64 x -> 0x413921fb <= a64 x / 2 ^ 32 < 0x7ff00000 ->
  exists n a c, rs_rem_pio2_huge ptr64 x (a64 x / 2 ^ 32) s = Some (n, a, c) /\ -7 <= n <= 7.
Proof. apply rem_pio2_huge_ok. Qed.

(** [rem_pio2_large] itself, for the callers' argument shapes: up to three 24-bit digits and the scale of a finite number. The
    last hypothesis is what bounds the recomputation loop; [reduction_gap64] and [reduction_gap32] establish it for every f64
    and f32 argument: no float comes closer to a multiple of (the truncated) pi/2 than the digits allow for. *)
Theorem C38_rem_pio2_large ptr64 x (X : Z -> Z) y e0 prec :
  1 <= Z.of_nat (length x) <= 3 -> -3 <= e0 <= 1000 -> prec = 0 \/ prec = 1 -> prec < Z.of_nat (length y) ->
  (forall j, 0 <= j < Z.of_nat (length x) -> isbits f64 (nth (Z.to_nat j) x 0) /\ finite f64 (nth (Z.to_nat j) x 0) = true /\ val f64 (nth (Z.to_nat j) x 0) = IZR (X j)) ->
  (forall j, 0 <= X j < 2 ^ 24) -> (forall j, Z.of_nat (length x) <= j -> X j = 0) ->
  (forall N, 2 ^ 80 <= Z.abs ((X 0 * 2 ^ 48 + X 1 * 2 ^ 24 + X 2) * win (IPIO2 ptr64) (jv_of e0) (Z.to_nat (prec + 3)) - N * 2 ^ (24 * (prec + 5) - q0_of e0))) ->
  exists y' n, rem_pio2_large ptr64 x y e0 prec = Some (y', n) /\ length y' = length y /\ 0 <= n <= 7.
Proof.
  intros Lx He Hp Ly Hx HX HX0 HG.
  assert (Hfx : forall j, 0 <= j < Z.of_nat (length x) -> fx (nz x j) (X j) 0).
  { intros j Hj. destruct (Hx j Hj) as (A & B & C). unfold nz, fx. split; [exact A|split; [exact B|]]. rewrite C. change (bpow radix2 0) with 1%R. now rewrite Rmult_1_r. }
  destruct (rem_pio2_large_ok ptr64 x X y e0 prec Lx He Hp Ly Hfx HX HX0 HG)
    as (n & ih & z & iq & q & jz & jz' & q1 & iq' & q' & fq & y' & _ & _ & _ & _ & _ & E1 & E2).
  exists y', (Z.land n 7). split; [exact E2|split; [exact E1|]].
  change 7 with (2 ^ 3 - 1). rewrite land_pow2m1 by lia. pose proof (Z.mod_pos_bound n (2 ^ 3) ltac:(lia)). lia.
Qed.

(** ** The callers *)
Ltac tcase := match goal with |- (if ?b then _ else _) <> None => destruct b end.
Theorem C38_sin x : isbits f64 x -> rs_sin x <> None.
Proof. intros B. unfold rs_sin, rs_rem_pio2. destruct (rem_pio2_total true x B) as (n & a & c & ->). cbn [bind]. repeat tcase; discriminate. Qed.
Theorem C38_cos x : isbits f64 x -> rs_cos x <> None.
Proof. intros B. unfold rs_cos, rs_cos_1, rs_rem_pio2. destruct (rem_pio2_total true x B) as (n & a & c & ->). cbn [bind]. repeat tcase; discriminate. Qed.
Theorem C38_tan x : isbits f64 x -> rs_tan x <> None.
Proof. intros B. unfold rs_tan, rs_rem_pio2. destruct (rem_pio2_total true x B) as (n & a & c & ->). cbn [bind]. repeat tcase; discriminate. Qed.
Lemma land3 n : Z.land n 3 = 0 \/ Z.land n 3 = 1 \/ Z.land n 3 = 2 \/ Z.land n 3 = 3.
Proof. change 3 with (2 ^ 2 - 1) at 1 2 3 4. rewrite land_pow2m1 by lia. pose proof (Z.mod_pos_bound n (2 ^ 2) ltac:(lia)). lia. Qed.
Theorem C38_sincos x : isbits f64 x -> rs_sincos x <> None.
Proof.
  intros B. unfold rs_sincos, rs_rem_pio2. destruct (rem_pio2_total true x B) as (n & a & c & ->). cbn [bind].
  destruct (land3 n) as [-> | [-> | [-> | ->]]]; cbn [Z.eqb Pos.eqb]; repeat tcase; discriminate.
Qed.
Ltac tcase2 := match goal with |- context [if ?b then _ else _] => destruct b end.
Theorem C38_sinf x : isbits f32 x -> rs_sinf x <> None.
Proof. intros B. unfold rs_sinf, rs_rem_pio2f. destruct (rem_pio2f_total true x B) as (n & a & ->). cbn [bind]. repeat tcase; discriminate. Qed.
Theorem C38_cosf x : isbits f32 x -> rs_cosf x <> None.
Proof. intros B. unfold rs_cosf, rs_rem_pio2f. destruct (rem_pio2f_total true x B) as (n & a & ->). cbn [bind]. repeat tcase; discriminate. Qed.
Theorem C38_tanf x : isbits f32 x -> rs_tanf x <> None.
Proof. intros B. unfold rs_tanf, rs_rem_pio2f. destruct (rem_pio2f_total true x B) as (n & a & ->). cbn [bind]. repeat tcase; discriminate. Qed.
Theorem C38_sincosf x : isbits f32 x -> rs_sincosf x <> None.
Proof.
  intros B. unfold rs_sincosf, rs_rem_pio2f. destruct (rem_pio2f_total true x B) as (n & a & ->). cbn [bind].
  destruct (land3 n) as [-> | [-> | [-> | ->]]]; cbn [Z.eqb Pos.eqb]; cbv zeta; repeat (tcase2; try discriminate).
Qed.

Print Assumptions C38_rem_pio2.
Print Assumptions C38_rem_pio2f.
Print Assumptions C38_rem_pio2_huge_quadrant.
Print Assumptions C38_rem_pio2_large.
Print Assumptions C38_sin.
Print Assumptions C38_cos.
Print Assumptions C38_tan.
Print Assumptions C38_sincos.
Print Assumptions C38_sinf.
Print Assumptions C38_cosf.
Print Assumptions C38_tanf.
Print Assumptions C38_sincosf.

(** The double closest to a multiple of pi/2 among the huge ones (Kahan's 6381956970095103 * 2^797) goes through the
    recomputation loop; the largest finite number uses the end of the table. *)
Example C38_ex_kahan : rs_rem_pio2_gen true 0x7506ac5b262ca1ff = Some (5, 0x3c214ae72e6ba22f, 0xb8973f0853f8ab5f).
Proof. vm_compute. reflexivity. Qed.
Example C38_ex_max : rs_rem_pio2_gen true 0x7FEFFFFFFFFFFFFF <> None.
Proof. vm_compute. discriminate. Qed.
Example C38_ex_maxf : rs_rem_pio2f_gen false 0x7f7fffff <> None.
Proof. vm_compute. discriminate. Qed.
