(** log1pf is accurate: all branches. *)
From Coq Require Import ZArith Reals Lia Lra Bool List Psatz.
From Flocq Require Import Core.
From Verif Require Import Base Spec SpecFun2 SpecLog SpecLog1p Format P_format Ieee P_ieee P_real P_neg P_lit P_err P_scalbn P_elem P_elem2 P_dom P_gam6 P_exp P_log P_apx P_expa5 P_lga3 P_lga5 P_lga7 P_l1a1 P_l1c1 P_l1a2 P_l1a3 P_expa6 P_expa12 P_lgb3 P_lgb4 P_lgb5 P_l1b1 P_l1b2 M_sqrt M_elib M_log.
Import ListNotations.
Open Scope R_scope.
Local Opaque fadd fsub fmul fdiv of_int rs_log1pf_1.

Lemma log1pf_within : log1p_like f32 rs_log1pf.
Proof.
  intros x B G H1. set (X := val f32 x) in *. destruct (bits32 x B) as [EB RB]. pose proof (fin32 x B) as FI. rewrite G in FI. symmetry in FI. apply Z.ltb_lt in FI.
  assert (SG : if signbit f32 x then X <= 0 else 0 <= X) by (destruct (signbit f32 x) eqn:S; [now apply val_sign_nonpos|now apply val_sign_nonneg]).
  assert (A0 : (0 <= a32 x)%Z) by lia.
  (* below -1 is excluded *)
  assert (NB : signbit f32 x = true -> (a32 x < 0x3f800000)%Z).
  { intros S. rewrite S in SG. destruct (Z_lt_le_dec (a32 x) 0x3f800000) as [C | C]; [exact C|]. exfalso. pose proof (a32_ge x 0x3f800000 B G ltac:(lia)) as [Q _]. specialize (Q ltac:(apply Z.leb_le; lia)). rewrite (proj2 o32) in Q. fold X in Q. rewrite Rabs_left1 in Q by lra. lra. }
  (* a small argument *)
  assert (SM : (a32 x < 0x33800000)%Z -> rel_eps f32 (ln (1 + X)) x).
  { intros C. apply l1_self; [vm_compute; discriminate|exact B|exact G|]. pose proof (a32_ge x 0x33800000 B G ltac:(lia)) as [_ Q]. specialize (Q ltac:(apply Z.leb_gt; lia)).
    rewrite (val_lit f32 (0x33800000 - 1) (2 ^ 24 - 1) (2 ^ 48)) in Q by (vm_compute; reflexivity). change (2 ^ 24 - 1)%Z with 16777215%Z in Q. change (2 ^ 48)%Z with 281474976710656%Z in Q. change (bpow radix2 (- mw f32 - 1)) with (/ 16777216). fold X in Q |- *. lra. }
  (* k = 0 *)
  assert (K0 : (0x33800000 <= a32 x)%Z -> -2930 / 10000 <= X <= 41425 / 100000 -> rel_eps f32 (ln (1 + X)) (l1resf x 0 0)).
  { intros C R. unfold l1resf.
    replace (fadd f32 (fmul f32 (of_int f32 0) rs_logf_LN2_LO) 0) with 0%Z by (vm_compute; reflexivity). replace (fmul f32 (of_int f32 0) rs_logf_LN2_HI) with 0%Z by (vm_compute; reflexivity).
    assert (V0 : val f32 0 = 0) by exact (val_zero f32 false).
    apply (log_k0f x 0 0 B G ltac:(split; vm_compute; (reflexivity || discriminate)) eq_refl V0 eq_refl V0); [|exact R].
    pose proof (a32_ge x 0x33800000 B G ltac:(lia)) as [Q _]. specialize (Q ltac:(apply Z.leb_le; lia)). eapply Rle_trans; [|exact Q]. rewrite (val_lit f32 0x33800000 1 (2 ^ 24)) by (vm_compute; reflexivity). change (2 ^ 24)%Z with 16777216%Z. change (bpow radix2 (-60)) with (/ 1152921504606846976). lra. }
  (* up to the last argument of the middle range *)
  assert (NM : signbit f32 x = true -> (a32 x <= 0x3e95f61a)%Z -> -2930 / 10000 <= X <= 41425 / 100000).
  { intros S C. rewrite S in SG. split; [|lra]. pose proof (a32_ge x 0x3e95f61b B G ltac:(lia)) as [_ Q]. specialize (Q ltac:(apply Z.leb_gt; lia)). fold X in Q. rewrite Rabs_left1 in Q by lra.
    rewrite (val_lit f32 (0x3e95f61b - 1) 0x95f61a 0x2000000) in Q by (vm_compute; reflexivity). lra. }
  destruct (Z.eq_dec x 0xbe95f61a) as [E0 | E0].
  - assert (A1 : a32 x = 0x3e95f61a%Z) by (rewrite E0; vm_compute; reflexivity). assert (S1 : signbit f32 x = true) by (rewrite E0; vm_compute; reflexivity).
    exists (l1resf x 0 0). split; [rewrite E0; vm_compute; reflexivity|]. apply K0; [lia|]. apply NM; [exact S1|lia].
  - assert (SH : Z.shiftr x 31 = bs (signbit f32 x)) by (rewrite EB at 1; apply shr31; lia).
    assert (S1 : shlu 32 x 1 = (2 * a32 x)%Z). { unfold shlu. rewrite Z.shiftl_mul_pow2 by lia. symmetry. apply (Z.mod_unique _ _ (bs (signbit f32 x))); [lia|]. change (2 ^ 1)%Z with 2%Z. rewrite EB at 1. lia. }
    unfold rs_log1pf. cbv zeta. rewrite SH, S1.
    destruct (signbit f32 x) eqn:S; cbn [bs] in EB |- *; rewrite ?Z.mul_0_l, ?Z.mul_1_l, ?Z.add_0_l in EB.
    + specialize (NB eq_refl). change (0 <? 1)%Z with true. rewrite orb_true_r.
      destruct (Z.leb_spec 0xbf800000 x); [lia|]. destruct (Z.ltb_spec (2 * a32 x) 0x67000000); [exists x; split; [reflexivity|apply SM; lia]|].
      destruct (Z.leb_spec x 0xbe95f619) as [L | L].
      * rewrite log1pf_0_eq. eexists. split; [reflexivity|]. apply K0; [lia|]. apply NM; [reflexivity|lia].
      * apply log1pf_1_ok; try assumption. left. pose proof (a32_ge x 0x3e95f61b B G ltac:(lia)) as [Q _]. specialize (Q ltac:(apply Z.leb_le; lia)). fold X in Q |- *. rewrite Rabs_left1 in Q by lra.
        rewrite (val_lit f32 0x3e95f61b 0x95f61b 0x2000000) in Q by (vm_compute; reflexivity). lra.
    + change (0 <? 0)%Z with false. rewrite orb_false_r.
      destruct (Z.ltb_spec x 0x3ed413d0) as [L | L].
      * destruct (Z.leb_spec 0xbf800000 x); [lia|]. destruct (Z.ltb_spec (2 * a32 x) 0x67000000); [exists x; split; [reflexivity|apply SM; lia]|]. destruct (Z.leb_spec x 0xbe95f619); [|lia].
        rewrite log1pf_0_eq. eexists. split; [reflexivity|]. apply K0; [lia|]. split; [lra|]. pose proof (a32_ge x 0x3ed413d0 B G ltac:(lia)) as [_ Q]. specialize (Q ltac:(apply Z.leb_gt; lia)). fold X in Q. rewrite Rabs_pos_eq in Q by lra.
        rewrite (val_lit f32 (0x3ed413d0 - 1) 0xd413cf 0x2000000) in Q by (vm_compute; reflexivity). lra.
      * destruct (Z.leb_spec 0x7f800000 x); [lia|]. apply log1pf_1_ok; try assumption. right. pose proof (a32_ge x 0x3ed413d0 B G ltac:(lia)) as [Q _]. specialize (Q ltac:(apply Z.leb_le; lia)). fold X in Q |- *. rewrite Rabs_pos_eq in Q by lra.
        rewrite (val_lit f32 0x3ed413d0 0xd413d0 0x2000000) in Q by (vm_compute; reflexivity). lra.
Qed.
