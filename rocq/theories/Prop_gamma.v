(** C52: special values of the gamma functions, the sign of gamma, and the factorials. *)
From Coq Require Import ZArith Reals Lia Lra Bool List.
From Flocq Require Import Core.
From Verif Require Import Base Spec SpecFun Format P_format Ieee P_ieee P_elem P_elem2 P_lit P_tot P_gam4 P_gam5 P_gam6 SpecGamma M_elib M_gamma.
Open Scope Z_scope.

(** lgamma_r and lgammaf_r: log |gamma(x)| and the sign of gamma(x) *)
Theorem C52_lgamma_r : lgamma_spec f64 rs_lgamma_r.
Proof. exact lgamma_r_ok. Qed.
Theorem C52_lgammaf_r : lgamma_spec f32 rs_lgammaf_r.
Proof. exact lgammaf_r_ok. Qed.
(** lgamma and lgammaf are the first component *)
Theorem C52_lgamma x : isbits f64 x -> exists y s, rs_lgamma_r x = Some (y, s) /\ rs_lgamma x = Some y.
Proof. intros B. destruct (lgamma_r_ok x B) as (y & s & E & _). exists y, s. split; [exact E|]. unfold rs_lgamma. rewrite E. reflexivity. Qed.
Theorem C52_lgammaf x : isbits f32 x -> exists y s, rs_lgammaf_r x = Some (y, s) /\ rs_lgammaf x = Some y.
Proof. intros B. destruct (lgammaf_r_ok x B) as (y & s & E & _). exists y, s. split; [exact E|]. unfold rs_lgammaf. rewrite E. reflexivity. Qed.
(** tgamma and tgammaf *)
Theorem C52_tgamma : tgamma_spec f64 rs_tgamma.
Proof. exact tgamma_ok. Qed.
Theorem C52_tgammaf : tgamma_spec f32 rs_tgammaf.
Proof. exact tgammaf_ok. Qed.
(** next to zero tgamma is the correctly rounded 1/x *)
Theorem C52_tgamma_tiny x : isbits f64 x -> finite f64 x = true -> val f64 x <> 0%R -> (Rabs (val f64 x) < bpow radix2 (-54))%R ->
  exists y, rs_tgamma x = Some y /\ rounds_to f64 (/ val f64 x) false y.
Proof.
  intros B G V H. exists (fdiv f64 0x3ff0000000000000 x). assert (W1 : val f64 0x3c90000000000000 = (1 / 18014398509481984)%R) by lit. split.
  - destruct (a64_ge x 0x3c90000000000000 B G ltac:(lia)) as [T1 _]. change (bpow radix2 (-54)) with (/ 18014398509481984)%R in H. unfold rs_tgamma. cbv zeta. rewrite ix64 by assumption. rewrite fin64 in G by assumption. apply Z.ltb_lt in G. rewrite hi_le by lia.
    replace (0x7ff00000 * 2 ^ 32 <=? a64 x) with false by (symmetry; apply Z.leb_gt; lia).
    rewrite Z.ltb_antisym, hi_le by lia. change (0x3c900000 * 2 ^ 32) with 0x3c90000000000000. destruct (0x3c90000000000000 <=? a64 x); [|reflexivity]. specialize (T1 eq_refl). lra.
  - assert (W : val f64 0x3ff0000000000000 = (1 / 1)%R) by lit. pose proof (fdiv_spec f64 0x3ff0000000000000 x eq_refl G V) as S. rewrite W in S. replace (1 / 1 / val f64 x)%R with (/ val f64 x)%R in S by (field; exact V).
    destruct S as [S1 S2]. split; [exact S1|]. destruct (Rlt_bool _ _); [|exact S2]. destruct S2 as (S2 & S3 & S4). split; [exact S2|]. split; [exact S3|]. rewrite S4.
    assert (N : (/ val f64 x <> 0)%R) by now apply Rinv_neq_0_compat. destruct (Rcompare_spec (/ val f64 x) 0); [reflexivity|contradiction|reflexivity].
Qed.
Print Assumptions C52_lgamma_r.
Print Assumptions C52_lgammaf_r.
Print Assumptions C52_lgamma.
Print Assumptions C52_lgammaf.
Print Assumptions C52_tgamma.
Print Assumptions C52_tgammaf.
Print Assumptions C52_tgamma_tiny.

(** gamma(-0.5) < 0 and gamma(-1.5) > 0; the pole at -3; gamma(5) = 24; gamma(23) = 22!; -185.5 underflows to +0 *)
Example C52_ex1 : (exists y, rs_lgamma_r 0xbfe0000000000000 = Some (y, -1)) /\ (exists y, rs_lgamma_r 0xbff8000000000000 = Some (y, 1)) /\ rs_lgamma_r 0xc008000000000000 = Some (0x7ff0000000000000, 1).
Proof. split; [|split]; [eexists; vm_compute; reflexivity|eexists; vm_compute; reflexivity|vm_compute; reflexivity]. Qed.
Example C52_ex2 : (exists y, rs_lgammaf_r 0xbf000000 = Some (y, -1)) /\ (exists y, rs_lgammaf_r 0xbfc00000 = Some (y, 1)) /\ rs_lgammaf_r 0xc0400000 = Some (0x7f800000, 1).
Proof. split; [|split]; [eexists; vm_compute; reflexivity|eexists; vm_compute; reflexivity|vm_compute; reflexivity]. Qed.
Example C52_ex3 : rs_tgamma 0x4014000000000000 = Some 0x4038000000000000 /\ rs_tgamma 0x4037000000000000 = Some 0x444e77526159f06c /\ rs_tgamma 0xc067300000000000 = Some 0 /\ rs_tgammaf 0x40a00000 = Some 0x41c00000.
Proof. repeat split; vm_compute; reflexivity. Qed.
Example C52_ex4 : factZ 4 = 24 /\ gamma_sgn (-1 / 2) = -1 /\ gamma_sgn (-3 / 2) = 1 /\ gamma_sgn (5 / 2) = 1.
Proof.
  split; [reflexivity|]. split; [|split].
  - rewrite sgn_neg by lra. replace (Zfloor (-1 / 2)) with (-1); [reflexivity|]. symmetry. apply Zfloor_imp. cbn. lra.
  - rewrite sgn_neg by lra. replace (Zfloor (-3 / 2)) with (-2); [reflexivity|]. symmetry. apply Zfloor_imp. cbn. lra.
  - apply sgn_pos. lra.
Qed.
