(** The last additions of log2 and log10, f64. *)
From Coq Require Import ZArith Reals Lia Lra Bool List Psatz.
From Flocq Require Import Core.
From Verif Require Import Base Spec SpecFun2 Format P_format Ieee P_ieee P_real P_neg P_lit P_err P_scalbn P_apx P_poly P_powt P_powt8 P_expa4 P_expa8 P_lga2 P_lga5 P_l2a1.
Import ListNotations.
Open Scope R_scope.
Local Opaque fadd fsub fmul fdiv of_int.

(** the code: w = y + vh; lo = vl + ((y - w) + vh); lo + w *)
Definition two64 (y vh vl : Z) : Z := let w := fadd f64 y vh in fadd f64 (fadd f64 vl (fadd f64 (fsub f64 y w) vh)) w.
Definition u64 : R := bpow radix2 (-53).
Lemma u64_eq : u64 = / 9007199254740992. Proof. reflexivity. Qed.
(** k <> 0 *)
Lemma two_tail y vh vl n g : finite f64 y = true -> finite f64 vh = true -> finite f64 vl = true -> val f64 y = IZR n * bpow radix2 g -> (-41 <= g)%Z -> Rabs (val f64 y) <= 1100 ->
  / 8 <= Rabs (val f64 y + val f64 vh) -> (Rabs (val f64 vh) <= 24 / 100 \/ Rabs (val f64 vh) <= 9 / 10 /\ / 2 <= Rabs (val f64 y + val f64 vh)) -> Rabs (val f64 vl) <= 1 -> let r := two64 y vh vl in let S := val f64 y + val f64 vh + val f64 vl in
  isbits f64 r /\ finite f64 r = true /\ Rabs (val f64 r - S) <= u64 * (Rabs S + Rabs (val f64 vl) + / 1000).
Proof.
  intros Fy Fh Fl Vy G LY LA LH LL r S. set (Y := val f64 y) in *. set (H := val f64 vh) in *. set (L := val f64 vl) in *. set (a := Y + H) in *.
  assert (TN : bpow radix2 (emin f64 - 1) <= / 1125899906842624 / 9007199254740992 / 1048576). { change (/ 1125899906842624 / 9007199254740992 / 1048576) with (bpow radix2 (-50) * bpow radix2 (-53) * bpow radix2 (-20)). rewrite <- !bpow_plus. apply bpow_le. vm_compute. discriminate. }
  assert (RA : forall v, Rabs (rnd f64 v - v) <= / 9007199254740992 * Rabs v + / 1125899906842624 / 9007199254740992 / 1048576). { intros v. pose proof (rndF_abs f64 v) as Q. change (bpow radix2 (- pr f64)) with (/ 9007199254740992) in Q. lra. }
  assert (BG : forall v, Rabs v <= 4096 -> Rabs v <= bpow radix2 (bias f64)). { intros v Hv. apply Rle_trans with (bpow radix2 12); [exact Hv|apply bpow_le; vm_compute; discriminate]. }
  assert (HH : Rabs H <= 9 / 10) by (destruct LH; lra).
  assert (LAu : Rabs a <= 1101) by (unfold a; eapply Rle_trans; [apply Rabs_triang|]; lra).
  pose proof (fadd_spec f64 y vh Fy Fh) as RW. fold Y H a in RW. destruct (rounds_fin f64 _ _ _ RW) as [Fw Vw]; [apply BG; lra|]. set (w := fadd f64 y vh) in *. pose proof (RA a) as EW. rewrite <- Vw in EW. set (W := val f64 w) in *.
  assert (EWb : Rabs (W - a) <= / 8388608 / 100) by lra.
  assert (WL : / 8 <= Rabs W /\ (/ 2 <= Rabs a -> / 2 <= Rabs W)).
  { split; [|intros A2]; [change (/ 8) with (bpow radix2 (-3)) in *|change (/ 2) with (bpow radix2 (-1)) in *]; rewrite Vw; apply abs_round_ge_generic; try apply FLT_exp_valid; try apply valid_rnd_N; try assumption; try (unfold Prec_gt_0; vm_compute; reflexivity); apply repr_bpow; vm_compute; discriminate. }
  assert (W0 : W <> 0). { intros E. rewrite E, Rabs_R0 in WL. lra. }
  set (j := (mag radix2 W - 1)%Z). pose proof (bpow_mag_le radix2 W W0) as ML. pose proof (bpow_mag_gt radix2 W) as MG. fold j in ML. replace (mag radix2 W : Z) with (j + 1)%Z in MG by (unfold j; ring).
  assert (J1 : (-3 <= j)%Z). { assert (-3 < j + 1)%Z; [|lia]. apply (lt_bpow radix2). change (bpow radix2 (-3)) with (/ 8). lra. }
  assert (J2 : (j <= 10)%Z). { assert (j < 11)%Z; [|lia]. apply (lt_bpow radix2). change (bpow radix2 11) with 2048. apply Rle_lt_trans with (1 := ML). replace W with ((W - a) + a) by ring. eapply Rle_lt_trans; [apply Rabs_triang|]. lra. }
  destruct (repr_grid f64 W j (repr_val f64 w Fw) (fun _ => ML)) as [q Hq]. change (mw f64) with 52%Z in Hq.
  assert (YG : Y = IZR (n * 2 ^ (g - (j - 52))) * bpow radix2 (j - 52)). { rewrite mult_IZR, IZR_pow2, Rmult_assoc, <- bpow_plus by lia. rewrite Vy. do 2 f_equal. lia. }
  assert (DW : Rabs (Y - W) < bpow radix2 (j + 1)).
  { replace (Y - W) with (- (H + (W - a))) by (unfold a; ring). rewrite Rabs_Ropp. eapply Rle_lt_trans; [apply Rabs_triang|]. destruct LH as [LH | [LH A2]].
    - apply Rlt_le_trans with (bpow radix2 (-2)); [change (bpow radix2 (-2)) with (/ 4); lra|apply bpow_le; lia].
    - assert (-1 < j + 1)%Z by (apply (lt_bpow radix2); change (bpow radix2 (-1)) with (/ 2); destruct WL as [_ WL]; specialize (WL A2); lra).
      apply Rlt_le_trans with (bpow radix2 0); [change (bpow radix2 0) with 1; lra|apply bpow_le; lia]. }
  destruct (exact_sub f64 y w (n * 2 ^ (g - (j - 52)) - q) (j - 52) Fy Fw) as (Bd & Fd & Vd).
  { fold Y W. rewrite minus_IZR, Rmult_minus_distr_r, <- YG, <- Hq. reflexivity. }
  { change (mw f64 + 1)%Z with 53%Z. apply lt_IZR. rewrite abs_IZR, IZR_pow2 by lia. apply Rmult_lt_reg_r with (bpow radix2 (j - 52)); [apply bpow_gt_0|]. rewrite <- bpow_plus. replace (53 + (j - 52))%Z with (j + 1)%Z by ring.
    rewrite <- (Rabs_pos_eq (bpow radix2 (j - 52))) at 1 by apply bpow_ge_0. rewrite <- Rabs_mult, minus_IZR, Rmult_minus_distr_r, <- YG, <- Hq. exact DW. }
  { change (emin f64) with (-1074)%Z. lia. }
  { apply BG. fold Y W. apply Rlt_le, Rlt_le_trans with (1 := DW). change 4096 with (bpow radix2 12). apply bpow_le. lia. }
  fold Y W in Vd. pose proof (fadd_spec f64 _ vh Fd Fh) as RE. rewrite Vd in RE. fold H in RE. replace (Y - W + H) with (a - W) in RE by (unfold a; ring). rewrite (Rabs_minus_sym W a) in EW, EWb.
  destruct (rounds_fin f64 _ _ _ RE) as [Fe Ve]; [apply BG; lra|]. set (e := fadd f64 (fsub f64 y w) vh) in *. pose proof (RA (a - W)) as EE. rewrite <- Ve in EE. set (E := val f64 e) in *.
  assert (EEb : Rabs E <= / 8388608 / 50). { replace E with ((E - (a - W)) + (a - W)) by ring. eapply Rle_trans; [apply Rabs_triang|]. lra. }
  assert (EEc : Rabs (E - (a - W)) <= / 9007199254740992 / 100000) by lra.
  pose proof (fadd_spec f64 vl e Fl Fe) as RL. fold L E in RL. assert (LE1 : Rabs (L + E) <= Rabs L + Rabs E) by apply Rabs_triang. destruct (rounds_fin f64 _ _ _ RL) as [Fl' Vl']; [apply BG; lra|]. set (l' := fadd f64 vl e) in *. pose proof (RA (L + E)) as EL. rewrite <- Vl' in EL. set (L' := val f64 l') in *.
  assert (ELb : Rabs L' <= 2). { replace L' with ((L' - (L + E)) + (L + E)) by ring. eapply Rle_trans; [apply Rabs_triang|]. lra. }
  assert (Wb : Rabs W <= 1102). { replace W with (a - (a - W)) by ring. unfold Rminus at 1. eapply Rle_trans; [apply Rabs_triang|]. rewrite Rabs_Ropp. lra. }
  pose proof (fadd_spec f64 l' w Fl' Fw) as RR. fold L' W in RR. assert (LW : Rabs (L' + W) <= Rabs L' + Rabs W) by apply Rabs_triang. destruct (rounds_fin f64 _ _ _ RR) as [Fr Vr]; [apply BG; lra|]. pose proof (RA (L' + W)) as ER. rewrite <- Vr in ER.
  change (fadd f64 l' w) with r in *. split; [exact (proj1 RR)|]. split; [exact Fr|]. rewrite u64_eq. set (R := val f64 r) in *.
  assert (S1 : Rabs (L' + W - S) <= / 9007199254740992 * (Rabs L + / 8000)). { replace (L' + W - S) with ((L' - (L + E)) + (E - (a - W))) by (unfold S, a; ring). eapply Rle_trans; [apply Rabs_triang|]. lra. }
  assert (S2 : Rabs (L' + W) <= Rabs S + / 1000000). { replace (L' + W) with ((L' + W - S) + S) by ring. eapply Rle_trans; [apply Rabs_triang|]. lra. }
  replace (R - S) with ((R - (L' + W)) + (L' + W - S)) by ring. eapply Rle_trans; [apply Rabs_triang|]. lra.
Qed.
(** k = 0 *)
Lemma two_tail0 y vh vl : finite f64 y = true -> val f64 y = 0 -> finite f64 vh = true -> finite f64 vl = true -> Rabs (val f64 vh) <= 1 -> Rabs (val f64 vl) <= 1 -> let r := two64 y vh vl in
  isbits f64 r /\ finite f64 r = true /\ val f64 r = rnd f64 (val f64 vh + val f64 vl).
Proof.
  intros Fy Vy Fh Fl LH LL r. assert (BG : forall v, Rabs v <= 4 -> Rabs v <= bpow radix2 (bias f64)). { intros v Hv. apply Rle_trans with (bpow radix2 2); [exact Hv|apply bpow_le; vm_compute; discriminate]. }
  pose proof (fadd_spec f64 y vh Fy Fh) as RW. rewrite Vy, Rplus_0_l in RW. destruct (rounds_fin f64 _ _ _ RW) as [Fw Vw]; [apply BG; lra|]. rewrite (repr_rnd f64 _ (repr_val f64 vh Fh)) in Vw. set (w := fadd f64 y vh) in *.
  pose proof (fsub_spec f64 y w Fy Fw) as RD. rewrite Vy, Vw, Rminus_0_l in RD. destruct (rounds_fin f64 _ _ _ RD) as [Fd Vd]. { rewrite Rabs_Ropp. apply BG. lra. }
  rewrite (repr_rnd f64 (- val f64 vh)) in Vd by (apply generic_format_opp; exact (repr_val f64 vh Fh)). set (d := fsub f64 y w) in *.
  pose proof (fadd_spec f64 d vh Fd Fh) as RE. rewrite Vd, Rplus_opp_l in RE. destruct (rounds_fin f64 _ _ _ RE) as [Fe Ve]. { rewrite Rabs_R0. apply bpow_ge_0. }
  rewrite (repr_rnd f64 0 (repr_0 f64)) in Ve. set (e := fadd f64 d vh) in *. destruct (add_zero f64 vl e Fl Fe Ve) as (Bl & Fl' & Vl'). { apply BG. lra. }
  set (l' := fadd f64 vl e) in *. pose proof (fadd_spec f64 l' w Fl' Fw) as RR. rewrite Vl', Vw in RR. destruct (rounds_fin f64 _ _ _ RR) as [Fr Vr]. { apply BG. eapply Rle_trans; [apply Rabs_triang|]. lra. }
  split; [exact (proj1 RR)|]. split; [exact Fr|]. rewrite (Rplus_comm (val f64 vh)). exact Vr.
Qed.
