(** [j1] and [j1f] are odd on finite arguments; special values of the Bessel functions. *)
From Coq Require Import ZArith Reals Lia Lra Bool List.
From Flocq Require Import Core.
From Verif Require Import Base Spec SpecFun SpecSym Format P_format Ieee P_ieee P_real P_neg M_basic M_elib M_scalbn M_sqrt M_exp M_log M_atrig M_erf M_pow M_bessel M_trig M_jn
  P_lit P_dom P_elem P_elem2 P_ival P_ival2 P_tot P_exp P_log P_nan P_atrig P_erf P_sym P_sym2 P_sym3 P_sym4 P_err P_bessel P_key P_jn2.
Import ListNotations.
Open Scope Z_scope.
Open Scope fl_scope.

Lemma some_inj {A} (a b : A) : Some a = Some b -> a = b. Proof. congruence. Qed.
(** [common] with the sign flag returns the opposite *)
Lemma common_sign ix y r : isbits f64 y -> rs_j1_common ix y false false = Some r -> exists r', rs_j1_common ix y false true = Some r' /\ rel f64 true true r r'.
Proof.
  intros B. unfold rs_j1_common. destruct (sin_tot y B) as (s & -> & _). destruct (cos_tot y B) as (c & -> & _). destruct (sqrt_total y B) as (v & -> & Bv). destruct (cos_tot _ (fmul_isbits f64 0x4000000000000000 y)) as (z & -> & _). cbn [bind]. cbv zeta iota.
  set (q := if ix <? 0x7fe00000 then _ else _). assert (Q : forall c, q = Some c -> isbits f64 c).
  { intros c0. unfold q. destruct (ix <? 0x7fe00000); [|intros E; apply some_inj in E; rewrite <- E; apply fsub_isbits]. destruct (fgt f64 (s *: c) 0), (ix <? 0x48000000); intros E; apply some_inj in E; rewrite <- E; first [apply fsub_isbits|apply fdiv_isbits]. }
  clearbody q. destruct q as [cc|]; [|discriminate]. specialize (Q cc eq_refl). cbn [bind]. apply some_rel.
  apply (rel_fdiv f64 true true false _ _ v v); [|now apply rel_refl]. apply (rel_fmul f64 true false true); [apply rel_refl; vm_compute; split; [discriminate|reflexivity]|now apply rel_fneg].
Qed.
Lemma commonf_sign ix y r : isbits f32 y -> rs_j1f_common ix y false false = Some r -> exists r', rs_j1f_common ix y false true = Some r' /\ rel f32 true true r r'.
Proof.
  intros B. unfold rs_j1f_common. destruct (sinf_tot y B) as (s & -> & _). destruct (cosf_tot y B) as (c & -> & _). destruct (sqrtf_total y B) as (v & -> & Bv). destruct (cosf_tot _ (fmul_isbits f32 0x40000000 y)) as (z & -> & _). cbn [bind]. cbv zeta iota.
  set (q := if ix <? 0x7f000000 then _ else _). assert (Q : forall c, q = Some c -> isbits f64 c).
  { intros c0. unfold q. destruct (ix <? 0x7f000000); [|intros E; apply some_inj in E; rewrite <- E; apply fsub_isbits]. destruct (fgt f64 _ 0), (ix <? 0x58800000); intros E; apply some_inj in E; rewrite <- E; first [apply fsub_isbits|apply fdiv_isbits]. }
  clearbody q. destruct q as [cc|]; [|discriminate]. specialize (Q cc eq_refl). cbn [bind]. apply some_rel. apply rel_fcvt.
  apply (rel_fdiv f64 true true false); [|apply rel_refl, fcvt_isbits]. apply (rel_fmul f64 true false true); [apply rel_refl, fcvt_isbits|now apply rel_fneg].
Qed.
Lemma val_half : val f64 0x3fe0000000000000 = (1 / 2)%R. Proof. lit. Qed.
Lemma half_absorb x : isbits f64 x -> finite f64 x = true -> a64 x < 0x3800000000000000 -> 0x3fe0000000000000 +: x = 0x3fe0000000000000.
Proof.
  intros B Fx A. assert (V : (Rabs (val f64 x) <= / 18446744073709551616)%R).
  { destruct (val_a64 x B) as (B1 & A1 & F1 & <-). assert (E : val f64 0x3bf0000000000000 = (1 / 18446744073709551616)%R) by lit. replace (/ 18446744073709551616)%R with (1 / 18446744073709551616)%R by lra. rewrite <- E. apply Rnot_lt_le. intros C. apply vgt64 in C; [|assumption].
    destruct (bits64 x B) as [_ R]. destruct (pos64 (a64 x) R) as (_ & A2 & S2). rewrite S2, A2 in C. change (key f64 0x3bf0000000000000) with 0x3bf0000000000000 in C. lia. }
  assert (R1 : rnd f64 (val f64 0x3fe0000000000000 + val f64 x) = (1 / 2)%R).
  { rewrite val_half. apply rnd64_absorb; [rewrite <- val_half; apply repr_val; reflexivity| |].
    - rewrite Rabs_pos_eq by lra. eapply Rle_trans; [apply (bpow_le radix2 (-1000) (-1)); lia|]. change (bpow radix2 (-1)) with (/ 2)%R. lra.
    - rewrite (Rabs_pos_eq (1 / 2)) by lra. change (bpow radix2 (-54)) with (/ 18014398509481984)%R. lra. }
  destruct (fadd_spec f64 0x3fe0000000000000 x eq_refl Fx) as [B1 H]. rewrite R1, Rlt_bool_true in H.
  2:{ rewrite Rabs_pos_eq by lra. apply Rlt_trans with 1%R; [lra|]. change 1%R with (bpow radix2 0). apply bpow_lt. reflexivity. }
  destruct H as (F1 & V1 & S1). apply (val_sign_inj f64); [exact B1|apply pos64; lia|exact F1|reflexivity|now rewrite V1, val_half|].
  rewrite S1, val_half, Rcompare_Gt; [reflexivity|]. apply Rabs_le_inv in V. lra.
Qed.
Lemma j1_odd x r : isbits f64 x -> finite f64 x = true -> signbit f64 x = false -> rs_j1 x = Some r -> exists r', rs_j1 (fneg f64 x) = Some r' /\ rel f64 true true r r'.
Proof.
  intros B Fx S. assert (Nx : isnan f64 x = false) by now apply finite_not_nan. revert x r B Nx Fx S. start64 rs_j1 x B Nx. intros Fx S. rewrite ?(fabs_fneg64 x B), S. cbn [negb bs]. change (negb (0 =? 0)) with false. change (negb (1 =? 0)) with true. cbv iota.
  rewrite (fin64 x B) in Fx. apply Z.ltb_lt in Fx. pose proof (Z.mul_div_le (a64 x) (2 ^ 32) ltac:(lia)) as DV. pose proof (Z.mul_succ_div_gt (a64 x) (2 ^ 32) ltac:(lia)) as DW.
  sif; [exfalso; rewrite Z.leb_le in *; lia|]. sif; [apply common_sign; now apply fabs_isbits|].
  destruct (0x38000000 <=? a64 x / 2 ^ 32) eqn:L.
  - apply some_rel; sym.
  - apply Z.leb_gt in L. rewrite (half_absorb x B), (half_absorb (fneg f64 x) B'); [apply some_rel; sym|rewrite (fin64 _ B'), (a64_fneg x B); apply Z.ltb_lt; lia|rewrite (a64_fneg x B); lia|rewrite (fin64 x B); apply Z.ltb_lt; lia|lia].
Qed.
Lemma j1f_odd x r : isbits f32 x -> finite f32 x = true -> signbit f32 x = false -> rs_j1f x = Some r -> exists r', rs_j1f (fneg f32 x) = Some r' /\ rel f32 true true r r'.
Proof.
  intros B Fx S. assert (Nx : isnan f32 x = false) by now apply finite_not_nan. revert x r B Nx Fx S. start32 rs_j1f x B Nx. intros Fx S. rewrite ?(fabs_fneg32 x B), S. cbn [negb bs]. change (negb (0 =? 0)) with false. change (negb (1 =? 0)) with true. cbv iota.
  rewrite (fin32 x B) in Fx. apply Z.ltb_lt in Fx.
  sif; [exfalso; rewrite Z.leb_le in *; lia|]. sif; [apply commonf_sign; now apply fabs_isbits|].
  destruct (0x39000000 <=? a32 x) eqn:L; apply some_rel; sym.
Qed.
