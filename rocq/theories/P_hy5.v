(** asinh, acosh and atanh (f64) are accurate. *)
From Coq Require Import ZArith Reals Lia Lra Bool List Psatz.
From Flocq Require Import Core.
From Verif Require Import Base Spec SpecFun2 SpecFun3 SpecLog SpecLog1p SpecLog2 SpecHyp Format P_format Ieee P_ieee P_real P_neg P_lit P_err P_scalbn P_apx P_elem P_elem2 P_exp P_log P_tot P_dom P_nan P_gam6 P_expa5 P_expa9 P_lga7 P_l1a3 P_hy1 P_hy2 P_hy3 P_hy4 M_sqrt M_elib M_log Prop_sqrt.
Open Scope R_scope.
Local Opaque fadd fsub fmul fdiv of_int rs_log rs_log1p M_sqrt.sqrt.

Lemma rel_neg F c V r : rel_err F c V r -> rel_err F c (- V) (fneg F r).
Proof. intros (A & B & C). split; [exact (proj1 (fneg_fields F r A))|]. split; [now rewrite fneg_finite|]. rewrite fneg_val, Rabs_Ropp by exact A. replace (- val F r - - V) with (- (val F r - V)) by ring. now rewrite Rabs_Ropp. Qed.
Lemma rel_zero F c b : isbits F (zero F b) -> finite F (zero F b) = true -> rel_err F c 0 (zero F b).
Proof. intros A B. split; [exact A|]. split; [exact B|]. rewrite val_zero, Rminus_diag_eq, Rabs_R0 by reflexivity. lra. Qed.

Notation one := 0x3ff0000000000000%Z.
Notation two := 0x4000000000000000%Z.
Notation half := 0x3fe0000000000000%Z.
Notation LN := 0x3fe62e42fefa39ef%Z.
Lemma w64 : (23 <= mw f64 <= 60)%Z. Proof. split; vm_compute; discriminate. Qed.
Lemma m64 : (pr f64 + 101 <= 1 - emin f64)%Z. Proof. vm_compute; discriminate. Qed.
Lemma b64 : (90 <= bias f64 <= 2 ^ 20)%Z. Proof. split; vm_compute; discriminate. Qed.
Lemma two64 : val f64 two = 2. Proof. rewrite (val_lit f64 two 2 1) by (vm_compute; reflexivity). lra. Qed.
Lemma half64 : val f64 half = / 2. Proof. rewrite (val_lit f64 half 1 2) by (vm_compute; reflexivity). lra. Qed.
Lemma lnc64 : RE f64 LN (ln 2) 1.
Proof.
  split; [split; vm_compute; (reflexivity || discriminate)|]. split; [reflexivity|]. rewrite (val_lit f64 LN 0x162e42fefa39ef (2 ^ 53)) by (vm_compute; reflexivity). change (2 ^ 53)%Z with 9007199254740992%Z. change (bpow radix2 (- pr f64)) with (/ 9007199254740992). pose proof ln2_b as H. apply Rabs_le_inv in H. change (2 ^ 86)%Z with 77371252455336267181195264%Z in H. apply Rabs_le. lra.
Qed.
Lemma ob64 : isbits f64 one. Proof. split; vm_compute; (reflexivity || discriminate). Qed.

Definition ash64 (x : Z) : option Z :=
  if (1049 <=? x / 2 ^ 52)%Z then ash_huge f64 LN rs_log x else if (1024 <=? x / 2 ^ 52)%Z then ash_big f64 one two M_sqrt.sqrt rs_log x
  else if (997 <=? x / 2 ^ 52)%Z then ash_mid f64 one M_sqrt.sqrt rs_log1p x else Some x.
Lemma asinh_eq x : isbits f64 x -> rs_asinh x = (let* r := ash64 (a64 x) in if signbit f64 x then Some (fneg f64 r) else Some r).
Proof.
  intros B. unfold rs_asinh, ash64, ash_huge, ash_big, ash_mid. rewrite a64_sh, (ex64 x B). words64 x B. set (y := a64 x). cbv zeta.
  destruct (1049 <=? y / 2 ^ 52)%Z.
  - change rs_asinh_LN2 with LN. destruct (rs_log y); destruct (signbit f64 x); reflexivity.
  - destruct (1024 <=? y / 2 ^ 52)%Z.
    + destruct (M_sqrt.sqrt _) as [v|]; [|destruct (signbit f64 x); reflexivity]. cbn [bind]. destruct (rs_log _); destruct (signbit f64 x); reflexivity.
    + destruct (997 <=? y / 2 ^ 52)%Z; [|destruct (signbit f64 x); reflexivity].
      destruct (M_sqrt.sqrt _) as [v|]; [|destruct (signbit f64 x); reflexivity]. cbn [bind]. destruct (rs_log1p _); destruct (signbit f64 x); reflexivity.
Qed.
(** thresholds *)
Lemma thr64 y n a b a' b' : isbits f64 y -> finite f64 y = true -> signbit f64 y = false -> (0 <= n * 2 ^ 52 < 0x7ff0000000000000)%Z -> litb f64 (n * 2 ^ 52) a b = true -> litb f64 (n * 2 ^ 52 - 1) a' b' = true ->
  ((n <= y / 2 ^ 52)%Z -> IZR a / IZR b <= val f64 y) /\ ((y / 2 ^ 52 < n)%Z -> val f64 y <= IZR a' / IZR b').
Proof.
  intros B G S R L1 L2. pose proof (a64_ge y (n * 2 ^ 52) B G R) as [Q1 Q2]. rewrite (pos64_eq y B S) in Q1, Q2. pose proof (val_sign_nonneg f64 y S) as V0. rewrite Rabs_pos_eq in Q1, Q2 by exact V0. rewrite (val_lit f64 _ _ _ L1) in Q1. rewrite (val_lit f64 _ _ _ L2) in Q2.
  pose proof (Z.div_mod y (2 ^ 52) ltac:(lia)) as D. pose proof (Z.mod_pos_bound y (2 ^ 52) ltac:(lia)) as M. split; intros H; [apply Q1; apply Z.leb_le; lia|apply Q2; apply Z.leb_gt; lia].
Qed.
Ltac thr y n a b a' b' B G S Q := pose proof (thr64 y n a b a' b' B G S ltac:(lia) ltac:(vm_compute; reflexivity) ltac:(vm_compute; reflexivity)) as Q.

Lemma ash64_ok y : isbits f64 y -> finite f64 y = true -> signbit f64 y = false -> exists r, ash64 y = Some r /\ rel_err f64 3 (Rasinh (val f64 y)) r.
Proof.
  intros B G S. pose proof (val_sign_nonneg f64 y S) as V0. destruct o64 as [Fo Vo].
  thr y 1049%Z 0x4000000%Z 1%Z 0x1fffffffffffff%Z 0x8000000%Z B G S T1. thr y 1024%Z 2%Z 1%Z 0x1fffffffffffff%Z 0x10000000000000%Z B G S T2. thr y 997%Z 1%Z 0x4000000%Z 0x1fffffffffffff%Z (2 ^ 79)%Z B G S T3.
  change (2 ^ 79)%Z with 604462909807314587353088%Z in T3. unfold ash64.
  destruct (Z.leb_spec 1049 (y / 2 ^ 52)) as [C1 | C1].
  - pose proof (proj1 T1 C1). apply (ash_huge_ok f64 w64 m64 b64 LN lnc64 rs_log log_within y B G); [lra|]. change (bpow radix2 (- pr f64)) with (/ 9007199254740992). assert (67108864 * 67108864 <= val f64 y * val f64 y) by (apply Rmult_le_compat; lra). lra.
  - destruct (Z.leb_spec 1024 (y / 2 ^ 52)) as [C2 | C2].
    + pose proof (proj2 T1 C1). pose proof (proj1 T2 C2). apply (ash_big_ok f64 w64 m64 b64 one two ob64 Fo Vo eq_refl two64 M_sqrt.sqrt rs_log C20_sqrt log_within y B G). lra.
    + destruct (Z.leb_spec 997 (y / 2 ^ 52)) as [C3 | C3].
      * pose proof (proj2 T2 C2). pose proof (proj1 T3 C3). apply (ash_mid_ok f64 w64 m64 b64 one ob64 Fo Vo M_sqrt.sqrt rs_log1p C20_sqrt log1p_within y B G). lra.
      * pose proof (proj2 T3 C3). exists y. split; [reflexivity|]. apply (ash_tiny_ok f64 w64 y B G V0). change (bpow radix2 (- pr f64)) with (/ 9007199254740992). assert (val f64 y * val f64 y <= / 67108864 * / 67108864) by (apply Rmult_le_compat; lra). lra.
Qed.
Lemma asinh_within : asinh_like f64 3 rs_asinh.
Proof.
  intros x B G. destruct (val_a64 x B) as (B1 & B2 & B3 & B4). rewrite G in B3. assert (S : signbit f64 (a64 x) = false) by (destruct (bits64 x B) as [_ R]; apply (pos64 (a64 x) R)).
  destruct (ash64_ok (a64 x) B1 B3 S) as (r & E & R). rewrite (asinh_eq x B), E. cbn [bind]. rewrite B4 in R.
  destruct (signbit f64 x) eqn:Sx.
  - pose proof (val_sign_nonpos f64 x Sx). rewrite Rabs_left1 in R by lra. exists (fneg f64 r). split; [reflexivity|]. rewrite <- (Ropp_involutive (val f64 x)), Rasinh_opp. apply rel_neg. exact R.
  - pose proof (val_sign_nonneg f64 x Sx). rewrite Rabs_pos_eq in R by lra. exists r. split; [reflexivity|exact R].
Qed.

Definition ath64 (y : Z) : option Z :=
  if (y / 2 ^ 52 <? 1022)%Z then (if (y / 2 ^ 52 <? 991)%Z then Some y else ath_mid f64 one two half rs_log1p y) else ath_hi f64 one two half rs_log1p y.
Lemma atanh_eq x : isbits f64 x -> rs_atanh x = (let* r := ath64 (a64 x) in if signbit f64 x then Some (fneg f64 r) else Some r).
Proof.
  intros B. unfold rs_atanh, ath64, ath_mid, ath_hi. rewrite (ex64 x B). words64 x B. set (y := a64 x). cbv zeta.
  destruct (y / 2 ^ 52 <? 1022)%Z.
  - destruct (y / 2 ^ 52 <? 991)%Z; [destruct (signbit f64 x); reflexivity|]. destruct (rs_log1p _); destruct (signbit f64 x); reflexivity.
  - destruct (rs_log1p _); destruct (signbit f64 x); reflexivity.
Qed.
Lemma ath64_ok y : isbits f64 y -> finite f64 y = true -> signbit f64 y = false -> val f64 y < 1 -> exists r, ath64 y = Some r /\ rel_err f64 3 (Ratanh (val f64 y)) r.
Proof.
  intros B G S V1. pose proof (val_sign_nonneg f64 y S) as V0. destruct o64 as [Fo Vo].
  thr y 1022%Z 1%Z 2%Z 0x1fffffffffffff%Z (2 ^ 54)%Z B G S T1. thr y 991%Z 1%Z (2 ^ 32)%Z 0x1fffffffffffff%Z (2 ^ 85)%Z B G S T2.
  change (2 ^ 54)%Z with 18014398509481984%Z in T1. change (2 ^ 32)%Z with 4294967296%Z in T2. change (2 ^ 85)%Z with 38685626227668133590597632%Z in T2. unfold ath64.
  destruct (Z.ltb_spec (y / 2 ^ 52) 1022) as [C1 | C1].
  - destruct (Z.ltb_spec (y / 2 ^ 52) 991) as [C2 | C2].
    + pose proof (proj2 T2 C2). exists y. split; [reflexivity|]. apply (ath_tiny_ok f64 w64 y B G V0). change (bpow radix2 (- pr f64)) with (/ 9007199254740992). assert (val f64 y * val f64 y <= / 67108864 * / 67108864) by (apply Rmult_le_compat; lra). lra.
    + pose proof (proj2 T1 C1). pose proof (proj1 T2 C2). apply (ath_mid_ok f64 w64 m64 b64 one two half ob64 Fo Vo eq_refl two64 eq_refl half64 rs_log1p log1p_within y B G). lra.
  - pose proof (proj1 T1 C1). apply (ath_hi_ok f64 w64 m64 b64 one two half Fo Vo eq_refl two64 eq_refl half64 rs_log1p log1p_within y B G). lra.
Qed.
Lemma atanh_within : atanh_like f64 3 rs_atanh.
Proof.
  intros x B G H. destruct (val_a64 x B) as (B1 & B2 & B3 & B4). rewrite G in B3. assert (S : signbit f64 (a64 x) = false) by (destruct (bits64 x B) as [_ R]; apply (pos64 (a64 x) R)).
  destruct (ath64_ok (a64 x) B1 B3 S) as (r & E & R); [rewrite B4; apply Rabs_lt; lra|]. rewrite (atanh_eq x B), E. cbn [bind]. rewrite B4 in R.
  destruct (signbit f64 x) eqn:Sx.
  - pose proof (val_sign_nonpos f64 x Sx). rewrite Rabs_left1 in R by lra. exists (fneg f64 r). split; [reflexivity|]. rewrite <- (Ropp_involutive (val f64 x)), Ratanh_opp by lra. apply rel_neg. exact R.
  - pose proof (val_sign_nonneg f64 x Sx). rewrite Rabs_pos_eq in R by lra. exists r. split; [reflexivity|exact R].
Qed.

Lemma acosh_eq x : isbits f64 x -> rs_acosh x = if (a64 x / 2 ^ 52 <? 1024)%Z then ach_lo f64 one two M_sqrt.sqrt rs_log1p x else if (a64 x / 2 ^ 52 <? 1049)%Z then ach_big f64 one two M_sqrt.sqrt rs_log x else ash_huge f64 LN rs_log x.
Proof. intros B. unfold rs_acosh, ach_lo, ach_big, ash_huge. rewrite (ex64 x B). reflexivity. Qed.
Lemma acosh_within : acosh_like f64 3 rs_acosh.
Proof.
  intros x B G H. pose proof (val_pos_sign f64 x ltac:(lra)) as S. destruct o64 as [Fo Vo]. destruct (Req_dec (val f64 x) 1) as [E1 | E1].
  - assert (E : x = one). { apply (val_sign_inj f64 x one B ob64 G Fo); [rewrite E1, Vo; reflexivity|rewrite S; reflexivity]. } exists 0%Z. split; [rewrite E; vm_compute; reflexivity|].
    rewrite E1. unfold Racosh. replace (1 * 1 - 1) with 0 by ring. rewrite sqrt_0, Rplus_0_r, ln_1. apply (rel_zero f64 3 false); [split; vm_compute; (reflexivity || discriminate)|reflexivity].
  - rewrite (acosh_eq x B), (pos64_eq x B S). set (V := val f64 x) in *.
    thr x 1049%Z 0x4000000%Z 1%Z 0x1fffffffffffff%Z 0x8000000%Z B G S T1. thr x 1024%Z 2%Z 1%Z 0x1fffffffffffff%Z 0x10000000000000%Z B G S T2. fold V in T1, T2.
    destruct (Z.ltb_spec (x / 2 ^ 52) 1024) as [C2 | C2].
    + pose proof (proj2 T2 C2). apply (ach_lo_ok f64 w64 m64 b64 one two Fo Vo eq_refl two64 M_sqrt.sqrt rs_log1p C20_sqrt log1p_within x G). fold V. lra.
    + destruct (Z.ltb_spec (x / 2 ^ 52) 1049) as [C1 | C1].
      * pose proof (proj2 T1 C1). pose proof (proj1 T2 C2). apply (ach_big_ok f64 w64 m64 b64 one two ob64 Fo Vo eq_refl two64 M_sqrt.sqrt rs_log C20_sqrt log_within x B G). fold V. lra.
      * pose proof (proj1 T1 C1). apply (ach_huge_ok f64 w64 m64 b64 LN lnc64 rs_log log_within x B G); fold V; [lra|]. change (bpow radix2 (- pr f64)) with (/ 9007199254740992). assert (67108864 * 67108864 <= V * V) by (apply Rmult_le_compat; lra). lra.
Qed.
