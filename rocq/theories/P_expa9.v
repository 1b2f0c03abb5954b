(** exp is accurate: reduction and result. *)
From Coq Require Import ZArith Reals Lia Lra Bool List Psatz.
From Flocq Require Import Core.
From Verif Require Import Base Spec SpecFun2 Format P_format Ieee P_ieee P_real P_neg P_lit P_err P_elem P_elem2 P_dom P_ival P_ival2 P_gam4 P_gam6 P_apx P_poly P_powt P_powt8 P_expa1 P_expa2 P_expa3 P_expa4 P_expa5 P_expa6 P_expa7 P_expa8 M_exp Prop_scale P_exp.
Import ListNotations.
Open Scope R_scope.

Lemma lhi64 : finite f64 rs_exp_LN2HI = true /\ val f64 rs_exp_LN2HI = IZR 2977044471 * bpow radix2 (-32).
Proof. split; [reflexivity|]. rewrite (val_lit f64 rs_exp_LN2HI 6243314766446592 9007199254740992) by (vm_compute; reflexivity). change (bpow radix2 (-32)) with (/ 4294967296). lra. Qed.
Lemma ln2_b : Rabs (ln 2 - 2977044471 / 4294967296 - 7382048951581814 / 38685626227668133590597632) <= / IZR (2 ^ 86).
Proof. pose proof ln2_in as [A B]. unfold fxr in A, B. let v := eval vm_compute in (l2n - 2 ^ 60)%Z in change (l2n - 2 ^ 60)%Z with v in A. let v := eval vm_compute in (l2n + 2 ^ 60)%Z in change (l2n + 2 ^ 60)%Z with v in B. let v := eval vm_compute in SC in change SC with v in A, B.
  let v := eval vm_compute in (2 ^ 86)%Z in change (2 ^ 86)%Z with v. apply Rabs_le. lra. Qed.
Lemma ln2_c : 693147180559 / 1000000000000 <= ln 2 <= 693147180560 / 1000000000000.
Proof. pose proof ln2_b as H. apply Rabs_le_inv in H. change (2 ^ 86)%Z with 77371252455336267181195264%Z in H. lra. Qed.
Lemma kR (k n : Z) : (Z.abs k <= n)%Z -> - IZR n <= IZR k <= IZR n.
Proof. intros H. rewrite <- opp_IZR. split; apply IZR_le; lia. Qed.
Lemma kmul (k : Z) n a b : (Z.abs k <= n)%Z -> Rabs a <= b -> Rabs (IZR k * a) <= IZR n * b.
Proof. intros H L. rewrite Rabs_mult, <- abs_IZR. apply Rmult_le_compat; [apply IZR_le; lia|apply Rabs_pos|apply IZR_le; exact H|exact L]. Qed.
Local Opaque fadd fsub fmul fdiv of_int.
Lemma red64 x k : isbits f64 x -> finite f64 x = true -> / 4 <= Rabs (val f64 x) -> (Z.abs k <= 1077)%Z -> Rabs (val f64 x - IZR k * ln 2) <= 3472 / 10000 ->
  let hi := fsub f64 x (fmul f64 (of_int f64 k) rs_exp_LN2HI) in let lo := fmul f64 (of_int f64 k) rs_exp_LN2LO in
  near f64 (val f64 x - IZR k * ln 2) (fadd f64 0x3ff0000000000000 (ew64 (fsub f64 hi lo) hi lo)).
Proof.
  intros Bx Fx Lx Hk Hr. set (r := val f64 x - IZR k * ln 2) in *. destruct lhi64 as [Fh Vh]. pose proof ln2_b as LB.
  set (l := IZR k * (ln 2 - val f64 rs_exp_LN2HI)).
  assert (VH : val f64 rs_exp_LN2HI = 2977044471 / 4294967296) by (rewrite Vh; change (bpow radix2 (-32)) with (/ 4294967296); lra).
  pose proof (kmul k 1077 _ _ Hk LB) as KL. replace (IZR k * (ln 2 - 2977044471 / 4294967296 - 7382048951581814 / 38685626227668133590597632)) with (l - IZR k * (7382048951581814 / 38685626227668133590597632)) in KL by (unfold l; rewrite VH; ring).
  pose proof (kR _ _ Hk) as KK. change (2 ^ 86)%Z with 77371252455336267181195264%Z in KL.
  assert (Ll : Rabs l <= 3 / 10000000) by (apply Rabs_le; apply Rabs_le_inv in KL; lra).
  assert (HH : val f64 x - IZR k * val f64 rs_exp_LN2HI = r + l) by (unfold r, l; ring).
  destruct (red_exact f64 x rs_exp_LN2HI k 2977044471 (-32) 1077 ltac:(vm_compute; discriminate) ltac:(vm_compute; reflexivity) Fx Fh Vh ltac:(lia) ltac:(vm_compute; reflexivity) ltac:(split; vm_compute; discriminate) ltac:(vm_compute; discriminate) Lx) as (Bh & Fhi & Vhi).
  { rewrite HH. apply Rabs_def1; apply Rabs_le_inv in Hr; apply Rabs_le_inv in Ll; lra. }
  intros hi lo. fold hi in Bh, Fhi, Vhi. rewrite HH in Vhi. destruct (of_int_small f64 k ltac:(vm_compute; discriminate) ltac:(vm_compute; reflexivity) ltac:(lia)) as (Bk & Fk & Vk).
  assert (Q : forall n, Rabs n <= 3472 / 10000 -> fxr (q4 (-3475)) <= n <= fxr (q4 3475)).
  { intros n Hn. apply Rabs_le_inv in Hn. split; [destruct (Rle_lt_dec (fxr (q4 (-3475))) n) as [A|A]; [exact A|apply Rlt_le, q4_le in A; lra]|].
    destruct (Rle_lt_dec n (fxr (q4 3475))) as [A|A]; [exact A|]. apply Rlt_le, q4_ge in A. lra. }
  assert (PL : 23 / 100000000 <= fxr pl64). { unfold pl64, fxr. let v := eval vm_compute in (SC / 2 ^ 22)%Z in change (SC / 2 ^ 22)%Z with v. let v := eval vm_compute in SC in change SC with v. lra. }
  assert (Ll2 : - fxr pl64 <= l <= fxr pl64) by (apply Rabs_le_inv in KL; lra).
  assert (AK : AP f64 1 (of_int f64 k) (IZR k) ((-1077 * SC)%Z, (1077 * SC)%Z, 0%Z)).
  { split; [now split|]. split; [|rewrite Vk, Rmult_1_l; unfold Rminus; rewrite Rplus_opp_r, Rabs_R0, fxr_0; lra]. unfold fxr. rewrite !mult_IZR. pose proof SC_pos. replace (IZR (-1077) * IZR SC / IZR SC) with (IZR (-1077)) by (field; lra). replace (IZR 1077 * IZR SC / IZR SC) with (IZR 1077) by (field; lra). lra. }
  assert (ALO : AP f64 1 lo l ((- pl64)%Z, pl64, el64)).
  { apy f64 1 (fmul f64 (of_int f64 k) rs_exp_LN2LO) K. eapply (AP_mv _ _ _ _ _ _ _ (1077 * (SC / 2 ^ 86))); [exact K| | |vm_compute; reflexivity].
    - rewrite Rabs_minus_sym. match goal with |- Rabs (l - ?e) <= _ => replace e with (IZR k * (7382048951581814 / 38685626227668133590597632)) by lra end. eapply Rle_trans; [exact KL|]. 
      unfold fxr. let v := eval vm_compute in (1077 * (SC / 2 ^ 86))%Z in change (1077 * (SC / 2 ^ 86))%Z with v. let v := eval vm_compute in SC in change SC with v. lra.
    - rewrite fxr_opp. exact Ll2. }
  assert (AHI : AP f64 1 hi (r + l) ((q4 (-3475) - pl64)%Z, (q4 3475 + pl64)%Z, 0%Z)).
  { split; [now split|]. split; [rewrite fxr_sub, fxr_add; pose proof (Q r Hr); lra|]. rewrite Vhi, Rmult_1_l. unfold Rminus. rewrite Rplus_opp_r, Rabs_R0, fxr_0. lra. }
  assert (AX : AP f64 1 (fsub f64 hi lo) r (q4 (-3475), q4 3475, ex64)).
  { apy f64 1 (fsub f64 hi lo) K. replace (r + l - l) with r in K by ring. eapply (AP_mv _ _ _ _ _ _ _ 0); [exact K| | |vm_compute; reflexivity].
    - unfold Rminus. rewrite Rplus_opp_r, Rabs_R0, fxr_0. lra.
    - exact (Q r Hr). }
  apply (ker64 _ hi lo r l); [|exact AX|exact AHI|exact ALO]. apply Rabs_le. pose proof (Q r Hr). pose proof (Q (- r) ltac:(rewrite Rabs_Ropp; exact Hr)). lra.
Qed.
