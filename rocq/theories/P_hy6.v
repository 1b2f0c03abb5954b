(** asinh, acosh and atanh (f32) are accurate. *)
From Coq Require Import ZArith Reals Lia Lra Bool List Psatz.
From Flocq Require Import Core.
From Verif Require Import Base Spec SpecFun2 SpecFun3 SpecLog SpecLog1p SpecLog2 SpecHyp Format P_format Ieee P_ieee P_real P_neg P_lit P_err P_scalbn P_apx P_elem P_elem2 P_exp P_log P_tot P_dom P_nan P_gam6 P_expa5 P_expa9 P_lga7 P_l1a3 P_hy1 P_hy2 P_hy3 P_hy4 P_hy5 P_expa6 P_expa12 P_lgb7 P_l1b3 M_sqrt M_elib M_log Prop_sqrt.
Open Scope R_scope.
Local Opaque fadd fsub fmul fdiv of_int rs_logf rs_log1pf M_sqrt.sqrtf.

Notation one := 0x3f800000%Z.
Notation two := 0x40000000%Z.
Notation half := 0x3f000000%Z.
Notation LN := 0x3f317218%Z.
Lemma w32 : (23 <= mw f32 <= 60)%Z. Proof. split; vm_compute; discriminate. Qed.
Lemma m32 : (pr f32 + 101 <= 1 - emin f32)%Z. Proof. vm_compute; discriminate. Qed.
Lemma b32 : (90 <= bias f32 <= 2 ^ 20)%Z. Proof. split; vm_compute; discriminate. Qed.
Lemma two32 : val f32 two = 2. Proof. rewrite (val_lit f32 two 2 1) by (vm_compute; reflexivity). lra. Qed.
Lemma half32 : val f32 half = / 2. Proof. rewrite (val_lit f32 half 1 2) by (vm_compute; reflexivity). lra. Qed.
Lemma lnc32 : RE f32 LN (ln 2) 1.
Proof.
  split; [split; vm_compute; (reflexivity || discriminate)|]. split; [reflexivity|]. rewrite (val_lit f32 LN 0xb17218 (2 ^ 24)) by (vm_compute; reflexivity). change (2 ^ 24)%Z with 16777216%Z. change (bpow radix2 (- pr f32)) with (/ 16777216). pose proof ln2_b as H. apply Rabs_le_inv in H. change (2 ^ 86)%Z with 77371252455336267181195264%Z in H. apply Rabs_le. lra.
Qed.
Lemma ob32 : isbits f32 one. Proof. split; vm_compute; (reflexivity || discriminate). Qed.

Definition ash32 (x : Z) : option Z :=
  if (0x45800000 <=? x)%Z then ash_huge f32 LN rs_logf x else if (0x40000000 <=? x)%Z then ash_big f32 one two M_sqrt.sqrtf rs_logf x
  else if (0x39800000 <=? x)%Z then ash_mid f32 one M_sqrt.sqrtf rs_log1pf x else Some x.
Lemma asinhf_eq x : isbits f32 x -> rs_asinhf x = (let* r := ash32 (a32 x) in if signbit f32 x then Some (fneg f32 r) else Some r).
Proof.
  intros B. unfold rs_asinhf, ash32, ash_huge, ash_big, ash_mid. words32 x B. set (y := a32 x). cbv zeta.
  destruct (0x45800000 <=? y)%Z.
  - change rs_asinhf_LN2 with LN. destruct (rs_logf y); destruct (signbit f32 x); reflexivity.
  - destruct (0x40000000 <=? y)%Z.
    + destruct (M_sqrt.sqrtf _) as [v|]; [|destruct (signbit f32 x); reflexivity]. cbn [bind]. destruct (rs_logf _); destruct (signbit f32 x); reflexivity.
    + destruct (0x39800000 <=? y)%Z; [|destruct (signbit f32 x); reflexivity].
      destruct (M_sqrt.sqrtf _) as [v|]; [|destruct (signbit f32 x); reflexivity]. cbn [bind]. destruct (rs_log1pf _); destruct (signbit f32 x); reflexivity.
Qed.
(** thresholds *)
Lemma thr32 y n a b a' b' : isbits f32 y -> finite f32 y = true -> signbit f32 y = false -> (0 <= n < 0x7f800000)%Z -> litb f32 (n) a b = true -> litb f32 (n - 1) a' b' = true ->
  ((n <= y)%Z -> IZR a / IZR b <= val f32 y) /\ ((y < n)%Z -> val f32 y <= IZR a' / IZR b').
Proof.
  intros B G S R L1 L2. pose proof (a32_ge y (n) B G R) as [Q1 Q2]. rewrite (pos32_eq y B S) in Q1, Q2. pose proof (val_sign_nonneg f32 y S) as V0. rewrite Rabs_pos_eq in Q1, Q2 by exact V0. rewrite (val_lit f32 _ _ _ L1) in Q1. rewrite (val_lit f32 _ _ _ L2) in Q2.
  split; intros H; [apply Q1; apply Z.leb_le; lia|apply Q2; apply Z.leb_gt; lia].
Qed.
Ltac thr y n a b a' b' B G S Q := pose proof (thr32 y n a b a' b' B G S ltac:(lia) ltac:(vm_compute; reflexivity) ltac:(vm_compute; reflexivity)) as Q.

Lemma ash32_ok y : isbits f32 y -> finite f32 y = true -> signbit f32 y = false -> exists r, ash32 y = Some r /\ rel_err f32 3 (Rasinh (val f32 y)) r.
Proof.
  intros B G S. pose proof (val_sign_nonneg f32 y S) as V0. destruct o32 as [Fo Vo].
  thr y 0x45800000%Z 0x1000%Z 1%Z 0xffffff%Z 0x1000%Z B G S T1. thr y 0x40000000%Z 2%Z 1%Z 0xffffff%Z 0x800000%Z B G S T2. thr y 0x39800000%Z 1%Z 0x1000%Z 0xffffff%Z (2 ^ 36)%Z B G S T3.
  change (2 ^ 36)%Z with 68719476736%Z in T3. unfold ash32.
  destruct (Z.leb_spec 0x45800000 y) as [C1 | C1].
  - pose proof (proj1 T1 C1). apply (ash_huge_ok f32 w32 m32 b32 LN lnc32 rs_logf logf_within y B G); [lra|]. change (bpow radix2 (- pr f32)) with (/ 16777216). assert (4096 * 4096 <= val f32 y * val f32 y) by (apply Rmult_le_compat; lra). lra.
  - destruct (Z.leb_spec 0x40000000 y) as [C2 | C2].
    + pose proof (proj2 T1 C1). pose proof (proj1 T2 C2). apply (ash_big_ok f32 w32 m32 b32 one two ob32 Fo Vo eq_refl two32 M_sqrt.sqrtf rs_logf C20_sqrtf logf_within y B G). lra.
    + destruct (Z.leb_spec 0x39800000 y) as [C3 | C3].
      * pose proof (proj2 T2 C2). pose proof (proj1 T3 C3). apply (ash_mid_ok f32 w32 m32 b32 one ob32 Fo Vo M_sqrt.sqrtf rs_log1pf C20_sqrtf log1pf_within y B G). lra.
      * pose proof (proj2 T3 C3). exists y. split; [reflexivity|]. apply (ash_tiny_ok f32 w32 y B G V0). change (bpow radix2 (- pr f32)) with (/ 16777216). assert (val f32 y * val f32 y <= / 4096 * / 4096) by (apply Rmult_le_compat; lra). lra.
Qed.
Lemma asinhf_within : asinh_like f32 3 rs_asinhf.
Proof.
  intros x B G. destruct (val_a32 x B) as (B1 & B2 & B3 & B4). rewrite G in B3. assert (S : signbit f32 (a32 x) = false) by (destruct (bits32 x B) as [_ R]; apply (pos32 (a32 x) R)).
  destruct (ash32_ok (a32 x) B1 B3 S) as (r & E & R). rewrite (asinhf_eq x B), E. cbn [bind]. rewrite B4 in R.
  destruct (signbit f32 x) eqn:Sx.
  - pose proof (val_sign_nonpos f32 x Sx). rewrite Rabs_left1 in R by lra. exists (fneg f32 r). split; [reflexivity|]. rewrite <- (Ropp_involutive (val f32 x)), Rasinh_opp. apply rel_neg. exact R.
  - pose proof (val_sign_nonneg f32 x Sx). rewrite Rabs_pos_eq in R by lra. exists r. split; [reflexivity|exact R].
Qed.

Definition ath32 (y : Z) : option Z :=
  if (y <? 0x3f000000)%Z then (if (y <? 0x2f800000)%Z then Some y else ath_mid f32 one two half rs_log1pf y) else ath_hi f32 one two half rs_log1pf y.
Lemma atanhf_eq x : isbits f32 x -> rs_atanhf x = (let* r := ath32 (a32 x) in if signbit f32 x then Some (fneg f32 r) else Some r).
Proof.
  intros B. unfold rs_atanhf, ath32, ath_mid, ath_hi. words32 x B. set (y := a32 x). cbv zeta.
  destruct (y <? 0x3f000000)%Z.
  - destruct (y <? 0x2f800000)%Z; [destruct (signbit f32 x); reflexivity|]. destruct (rs_log1pf _); destruct (signbit f32 x); reflexivity.
  - destruct (rs_log1pf _); destruct (signbit f32 x); reflexivity.
Qed.
Lemma ath32_ok y : isbits f32 y -> finite f32 y = true -> signbit f32 y = false -> val f32 y < 1 -> exists r, ath32 y = Some r /\ rel_err f32 3 (Ratanh (val f32 y)) r.
Proof.
  intros B G S V1. pose proof (val_sign_nonneg f32 y S) as V0. destruct o32 as [Fo Vo].
  thr y 0x3f000000%Z 1%Z 2%Z 0xffffff%Z (2 ^ 25)%Z B G S T1. thr y 0x2f800000%Z 1%Z (2 ^ 32)%Z 0xffffff%Z (2 ^ 56)%Z B G S T2.
  change (2 ^ 25)%Z with 33554432%Z in T1. change (2 ^ 32)%Z with 4294967296%Z in T2. change (2 ^ 56)%Z with 72057594037927936%Z in T2. unfold ath32.
  destruct (Z.ltb_spec y 0x3f000000) as [C1 | C1].
  - destruct (Z.ltb_spec y 0x2f800000) as [C2 | C2].
    + pose proof (proj2 T2 C2). exists y. split; [reflexivity|]. apply (ath_tiny_ok f32 w32 y B G V0). change (bpow radix2 (- pr f32)) with (/ 16777216). assert (val f32 y * val f32 y <= / 4096 * / 4096) by (apply Rmult_le_compat; lra). lra.
    + pose proof (proj2 T1 C1). pose proof (proj1 T2 C2). apply (ath_mid_ok f32 w32 m32 b32 one two half ob32 Fo Vo eq_refl two32 eq_refl half32 rs_log1pf log1pf_within y B G). lra.
  - pose proof (proj1 T1 C1). apply (ath_hi_ok f32 w32 m32 b32 one two half Fo Vo eq_refl two32 eq_refl half32 rs_log1pf log1pf_within y B G). lra.
Qed.
Lemma atanhf_within : atanh_like f32 3 rs_atanhf.
Proof.
  intros x B G H. destruct (val_a32 x B) as (B1 & B2 & B3 & B4). rewrite G in B3. assert (S : signbit f32 (a32 x) = false) by (destruct (bits32 x B) as [_ R]; apply (pos32 (a32 x) R)).
  destruct (ath32_ok (a32 x) B1 B3 S) as (r & E & R); [rewrite B4; apply Rabs_lt; lra|]. rewrite (atanhf_eq x B), E. cbn [bind]. rewrite B4 in R.
  destruct (signbit f32 x) eqn:Sx.
  - pose proof (val_sign_nonpos f32 x Sx). rewrite Rabs_left1 in R by lra. exists (fneg f32 r). split; [reflexivity|]. rewrite <- (Ropp_involutive (val f32 x)), Ratanh_opp by lra. apply rel_neg. exact R.
  - pose proof (val_sign_nonneg f32 x Sx). rewrite Rabs_pos_eq in R by lra. exists r. split; [reflexivity|exact R].
Qed.

Lemma acoshf_eq x : isbits f32 x -> rs_acoshf x = if (a32 x <? 0x40000000)%Z then ach_lo f32 one two M_sqrt.sqrtf rs_log1pf x else if (a32 x <? 0x45800000)%Z then ach_big f32 one two M_sqrt.sqrtf rs_logf x else ash_huge f32 LN rs_logf x.
Proof. intros B. unfold rs_acoshf, ach_lo, ach_big, ash_huge. words32 x B. reflexivity. Qed.
Lemma acoshf_within : acosh_like f32 3 rs_acoshf.
Proof.
  intros x B G H. pose proof (val_pos_sign f32 x ltac:(lra)) as S. destruct o32 as [Fo Vo]. destruct (Req_dec (val f32 x) 1) as [E1 | E1].
  - assert (E : x = one). { apply (val_sign_inj f32 x one B ob32 G Fo); [rewrite E1, Vo; reflexivity|rewrite S; reflexivity]. } exists 0%Z. split; [rewrite E; vm_compute; reflexivity|].
    rewrite E1. unfold Racosh. replace (1 * 1 - 1) with 0 by ring. rewrite sqrt_0, Rplus_0_r, ln_1. apply (rel_zero f32 3 false); [split; vm_compute; (reflexivity || discriminate)|reflexivity].
  - rewrite (acoshf_eq x B), (pos32_eq x B S). set (V := val f32 x) in *.
    thr x 0x45800000%Z 0x1000%Z 1%Z 0xffffff%Z 0x1000%Z B G S T1. thr x 0x40000000%Z 2%Z 1%Z 0xffffff%Z 0x800000%Z B G S T2. fold V in T1, T2.
    destruct (Z.ltb_spec x 0x40000000) as [C2 | C2].
    + pose proof (proj2 T2 C2). apply (ach_lo_ok f32 w32 m32 b32 one two Fo Vo eq_refl two32 M_sqrt.sqrtf rs_log1pf C20_sqrtf log1pf_within x G). fold V. lra.
    + destruct (Z.ltb_spec x 0x45800000) as [C1 | C1].
      * pose proof (proj2 T1 C1). pose proof (proj1 T2 C2). apply (ach_big_ok f32 w32 m32 b32 one two ob32 Fo Vo eq_refl two32 M_sqrt.sqrtf rs_logf C20_sqrtf logf_within x B G). fold V. lra.
      * pose proof (proj1 T1 C1). apply (ach_huge_ok f32 w32 m32 b32 LN lnc32 rs_logf logf_within x B G); fold V; [lra|]. change (bpow radix2 (- pr f32)) with (/ 16777216). assert (4096 * 4096 <= V * V) by (apply Rmult_le_compat; lra). lra.
Qed.
