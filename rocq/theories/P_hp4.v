(** hypot and hypotf on ordered magnitudes. *)
From Coq Require Import ZArith Reals Lia Lra Bool List Psatz.
From Flocq Require Import Core Mult_error.
From Verif Require Import Base Spec SpecFun3 SpecHypot2 Format P_format Ieee P_ieee P_real P_neg P_lit P_err P_apx P_key M_sqrt Prop_sqrt M_elib M_pow P_elem P_elem2 P_dom Prop_hypot P_hy1 P_hp1 P_hp2 P_hp3.
Open Scope R_scope.
Local Opaque fadd fsub fmul fdiv of_int M_sqrt.sqrt M_sqrt.sqrtf.

Section P.
Variable F : fmt.
Hypothesis MW : (23 <= mw F)%Z.
Definition top : Z := ((2 ^ ew F - 1) * 2 ^ mw F)%Z.
Lemma pv a : (0 <= a < top)%Z -> isbits F a /\ finite F a = true /\ val F a = mag_of F (a / 2 ^ mw F) (a mod 2 ^ mw F) /\ (0 <= a / 2 ^ mw F)%Z /\ (0 <= a mod 2 ^ mw F < 2 ^ mw F)%Z.
Proof.
  unfold top. intros H. pose proof (fmt_facts F) as FF. assert (P : (0 < 2 ^ mw F)%Z) by (apply Z.pow_pos_nonneg; lia). assert (Q : (0 < 2 ^ ew F)%Z) by (apply Z.pow_pos_nonneg; lia).
  assert (D : (0 <= a / 2 ^ mw F < 2 ^ ew F - 1)%Z) by (split; [apply Z.div_pos; lia|apply Z.div_lt_upper_bound; lia]).
  assert (E : expf F a = (a / 2 ^ mw F)%Z) by (unfold expf; apply Z.mod_small; lia).
  assert (PE : (2 ^ (mw F + ew F) = 2 ^ mw F * 2 ^ ew F)%Z) by (apply Z.pow_add_r; lia).
  assert (S : signbit F a = false). { unfold signbit. rewrite PE. apply Z.leb_gt. nia. }
  split. { split; [lia|]. unfold width. replace (mw F + ew F + 1)%Z with (1 + (mw F + ew F))%Z by lia. rewrite Z.pow_add_r, PE by lia. nia. }
  split; [unfold finite; rewrite E; apply Z.ltb_lt; lia|]. split; [unfold val; rewrite S, E; reflexivity|]. split; [lia|apply Z.mod_pos_bound; lia].
Qed.
Lemma pos_mono a b : (0 <= b <= a)%Z -> (a < top)%Z -> 0 <= val F b <= val F a.
Proof.
  intros H T. destruct (pv a ltac:(lia)) as (_ & _ & Va & A1 & A2). destruct (pv b ltac:(lia)) as (_ & _ & Vb & B1 & B2). rewrite Va, Vb. split; [apply mag_of_nonneg; lia|].
  destruct (Z.eq_dec a b) as [-> | N]; [lra|]. pose proof (fmt_facts F) as FF. assert (P : (0 < 2 ^ mw F)%Z) by (apply Z.pow_pos_nonneg; lia). 
  pose proof (Z.div_mod a (2 ^ mw F) ltac:(lia)). pose proof (Z.div_mod b (2 ^ mw F) ltac:(lia)).
  apply Rlt_le. apply mag_of_mono; try lia; try nia.
Qed.
Lemma pow_val e : (1 <= e < 2 ^ ew F - 1)%Z -> val F (e * 2 ^ mw F) = bpow radix2 (e - bias F).
Proof.
  intros H. pose proof (fmt_facts F) as FF. assert (P : (0 < 2 ^ mw F)%Z) by (apply Z.pow_pos_nonneg; lia). destruct (pv (e * 2 ^ mw F)) as (_ & _ & V & _); [unfold top; nia|].
  rewrite V, Z.div_mul, Z_mod_mult by lia. unfold mag_of. destruct (Z.eqb_spec e 0); [lia|]. rewrite Z.add_0_r. rewrite (IZR_Zpower radix2) by lia. rewrite <- bpow_plus. f_equal. lia.
Qed.
Lemma ge_pow e a : (1 <= e < 2 ^ ew F - 1)%Z -> (e * 2 ^ mw F <= a < top)%Z -> bpow radix2 (e - bias F) <= val F a.
Proof. intros H L. rewrite <- pow_val by exact H. pose proof (fmt_facts F) as FF. assert (P : (0 < 2 ^ mw F)%Z) by (apply Z.pow_pos_nonneg; lia). destruct (pos_mono a (e * 2 ^ mw F)) as [_ K]; [nia|lia|exact K]. Qed.
Lemma le_pow e a : (1 <= e < 2 ^ ew F - 1)%Z -> (0 <= a <= e * 2 ^ mw F)%Z -> val F a <= bpow radix2 (e - bias F).
Proof. intros H L. rewrite <- pow_val by exact H. pose proof (fmt_facts F) as FF. assert (P : (0 < 2 ^ mw F)%Z) by (apply Z.pow_pos_nonneg; lia). destruct (pos_mono (e * 2 ^ mw F) a) as [_ K]; [lia|unfold top; nia|exact K]. Qed.
(** n binades apart *)
Lemma far a b n : (0 <= b)%Z -> (1 <= n)%Z -> (b + n * 2 ^ mw F <= a < top)%Z -> val F b <= bpow radix2 (- n) * val F a.
Proof.
  intros B0 N H. pose proof (fmt_facts F) as FF. assert (P : (0 < 2 ^ mw F)%Z) by (apply Z.pow_pos_nonneg; lia).
  set (c := (b + n * 2 ^ mw F)%Z) in *. assert (C0 : (0 <= c)%Z) by (unfold c; nia). destruct (pos_mono a c ltac:(lia) ltac:(lia)) as [_ K].
  apply Rle_trans with (bpow radix2 (- n) * val F c); [|apply Rmult_le_compat_l; [apply bpow_ge_0|exact K]].
  destruct (pv c ltac:(lia)) as (_ & _ & Vc & _). destruct (pv b ltac:(unfold c in *; nia)) as (_ & _ & Vb & B1 & B2). rewrite Vc, Vb. unfold c. rewrite Z.div_add, Z_mod_plus_full by lia.
  set (e := (b / 2 ^ mw F)%Z) in *. set (m := (b mod 2 ^ mw F)%Z) in *. unfold mag_of. destruct (Z.eqb_spec (e + n) 0); [lia|]. destruct (Z.eqb_spec e 0) as [E | E].
  - rewrite E. replace (1 - bias F - mw F)%Z with (1 + (- n + (0 + n - bias F - mw F)))%Z by lia. rewrite (bpow_plus radix2 1), (bpow_plus radix2 (- n)). change (bpow radix2 1) with 2.
    assert (IZR (2 * m) <= IZR (2 ^ mw F + m)) by (apply IZR_le; lia). rewrite mult_IZR in H0. pose proof (bpow_gt_0 radix2 (- n)) as G1. pose proof (bpow_gt_0 radix2 (0 + n - bias F - mw F)) as G2.
    set (s := bpow radix2 (- n)) in *. set (t := bpow radix2 (0 + n - bias F - mw F)) in *. assert (0 < s * t) by (apply Rmult_lt_0_compat; assumption). nra.
  - replace (e - bias F - mw F)%Z with (- n + (e + n - bias F - mw F))%Z by lia. rewrite (bpow_plus radix2 (- n)). lra.
Qed.
(** multiplication by a power of two that neither overflows nor becomes subnormal *)
Lemma sc_ex c x e : finite F c = true -> val F c = bpow radix2 e -> finite F x = true -> 0 < val F x -> (0 <= e)%Z \/ bpow radix2 (emin F + pr F - 1) <= bpow radix2 e * val F x -> bpow radix2 e * val F x < bpow radix2 (bias F + 1) ->
  isbits F (fmul F x c) /\ finite F (fmul F x c) = true /\ val F (fmul F x c) = bpow radix2 e * val F x.
Proof.
  intros FC VC FX V0 D L. pose proof (fmt_facts F) as FF. assert (PG : Prec_gt_0 (pr F)) by (unfold Prec_gt_0, pr; lia). pose proof (bpow_gt_0 radix2 e) as E0.
  assert (R : rnd F (val F x * val F c) = bpow radix2 e * val F x).
  { rewrite VC, (Rmult_comm (bpow radix2 e)). apply repr_rnd. unfold repr. destruct D as [D | D].
    - apply mult_bpow_pos_exact_FLT; [exact (repr_val F x FX)|exact D].
    - apply mult_bpow_exact_FLT; [exact (repr_val F x FX)|]. rewrite Rmult_comm in D. pose proof (mag_ge_bpow radix2 (val F x * bpow radix2 e) (emin F + pr F)) as MG. rewrite mag_mult_bpow in MG by lra. rewrite Rabs_pos_eq in MG by nra. specialize (MG D). unfold emin, pr in MG. lia. }
  destruct (fmul_spec F x c FX FC) as [B H]. rewrite R in H. rewrite Rlt_bool_true in H by (rewrite Rabs_pos_eq by nra; exact L). split; [exact B|]. split; [exact (proj1 H)|exact (proj1 (proj2 H))].
Qed.
End P.
