(** [jn], [yn], [jnf], [ynf] return for every order and every argument. *)
From Coq Require Import ZArith Reals Bool List Lia Lra Psatz.
From Flocq Require Import Core.
From Verif Require Import Base Spec Format Ieee P_format P_ieee P_real P_neg P_err P_lit P_tot P_elem P_elem2 P_red64b P_ival P_log P_bessel P_key P_nan P_dom P_sym3 P_jn M_basic M_sqrt M_elib M_trig M_log M_bessel M_jn.
Open Scope Z_scope.
Open Scope fl_scope.

Ltac step_sadd := rewrite sadd_ok by (change (2 ^ (32 - 1)) with 2147483648; lia); cbn [bind].
Ltac step_ssub := rewrite ssub_ok by (change (2 ^ (32 - 1)) with 2147483648; lia); cbn [bind].
Ltac ib := repeat (split; [|try lia]); try lia; try apply fadd_isbits; try apply fsub_isbits; try apply fmul_isbits; try apply fdiv_isbits; try assumption.

Lemma fuel_big k : k <= 4294967296 -> k < Zpos fuel. Proof. intros H. change (Zpos fuel) with 8589934592. lia. Qed.

(** ** The counted loops *)
Section Loops.
Variables nm1 x : Z.
Hypothesis N : 0 <= nm1 < 2147483648.
Ltac cnt I mu := apply (run_rule I mu (fun r => _)).
Definition inv3 (F : fmt) (s : Z * Z * Z) : Prop := let '(i, a, b) := s in 0 <= i <= nm1 /\ isbits F a /\ isbits F b.
Lemma fwd_tot a b : isbits f64 a -> isbits f64 b -> exists r, run fuel (rs_jn_fwd nm1 x) (0, a, b) = Some r /\ isbits f64 r.
Proof.
  intros A B. apply (run_rule (inv3 f64) (fun s => nm1 - fst (fst s)) (isbits f64)); [|split; [lia|repeat (split; [assumption|]); assumption]|apply fuel_big; cbn; lia].
  intros [[i a'] b'] (Hi & A' & B'). unfold rs_jn_fwd. destruct (Z.ltb_spec i nm1); [|eexists; split; [reflexivity|exact B']].
  step_sadd. eexists; split; [reflexivity|]. cbn [fst]. split; [|lia]. split; [lia|]. split; [exact B'|]. apply fsub_isbits.
Qed.
Lemma fwdf_tot a b : isbits f32 a -> isbits f32 b -> exists r, run fuel (rs_jnf_fwd nm1 x) (0, a, b) = Some r /\ isbits f32 r.
Proof.
  intros A B. apply (run_rule (inv3 f32) (fun s => nm1 - fst (fst s)) (isbits f32)); [|split; [lia|repeat (split; [assumption|]); assumption]|apply fuel_big; cbn; lia].
  intros [[i a'] b'] (Hi & A' & B'). unfold rs_jnf_fwd. destruct (Z.ltb_spec i nm1); [|eexists; split; [reflexivity|exact B']].
  step_sadd. eexists; split; [reflexivity|]. cbn [fst]. split; [|lia]. split; [lia|]. split; [exact B'|]. apply fsub_isbits.
Qed.
Lemma back_tot a b : isbits f64 a -> isbits f64 b -> exists r, run fuel (rs_jn_back x) (nm1, a, b) = Some r /\ isbits f64 (fst r) /\ isbits f64 (snd r).
Proof.
  intros A B. apply (run_rule (inv3 f64) (fun s => fst (fst s)) (fun r => isbits f64 (fst r) /\ isbits f64 (snd r))); [|split; [lia|repeat (split; [assumption|]); assumption]|apply fuel_big; cbn; lia].
  intros [[i a'] b'] (Hi & A' & B'). unfold rs_jn_back. destruct (Z.ltb_spec 0 i); [|eexists; split; [reflexivity|now split]].
  step_ssub. eexists; split; [reflexivity|]. cbn [fst]. split; [|lia]. split; [lia|]. split; [exact B'|]. apply fsub_isbits.
Qed.
Lemma backf_tot a b : isbits f32 a -> isbits f32 b -> exists r, run fuel (rs_jnf_back x) (nm1, a, b) = Some r /\ isbits f32 (fst r) /\ isbits f32 (snd r).
Proof.
  intros A B. apply (run_rule (inv3 f32) (fun s => fst (fst s)) (fun r => isbits f32 (fst r) /\ isbits f32 (snd r))); [|split; [lia|repeat (split; [assumption|]); assumption]|apply fuel_big; cbn; lia].
  intros [[i a'] b'] (Hi & A' & B'). unfold rs_jnf_back. destruct (Z.ltb_spec 0 i); [|eexists; split; [reflexivity|now split]].
  step_ssub. eexists; split; [reflexivity|]. cbn [fst]. split; [|lia]. split; [lia|]. split; [exact B'|]. apply fsub_isbits.
Qed.
Definition inv4 (F : fmt) (s : Z * Z * Z * Z) : Prop := let '(i, a, b, t) := s in 0 <= i <= nm1 /\ isbits F a /\ isbits F b /\ isbits F t.
Lemma scaled_tot a b t : isbits f64 a -> isbits f64 b -> isbits f64 t -> exists r, run fuel (rs_jn_scaled x) (nm1, a, b, t) = Some r /\ isbits f64 (fst (fst r)) /\ isbits f64 (snd (fst r)) /\ isbits f64 (snd r).
Proof.
  intros A B T. apply (run_rule (inv4 f64) (fun s => fst (fst (fst s))) (fun r => isbits f64 (fst (fst r)) /\ isbits f64 (snd (fst r)) /\ isbits f64 (snd r))); [|split; [lia|repeat (split; [assumption|]); assumption]|apply fuel_big; cbn; lia].
  intros [[[i a'] b'] t'] (Hi & A' & B' & T'). unfold rs_jn_scaled. destruct (Z.ltb_spec 0 i); [|eexists; split; [reflexivity|repeat (split; [assumption|]); assumption]].
  cbv zeta. set (b2 := _ -: a') in *. assert (B2 : isbits f64 b2) by apply fsub_isbits. destruct (fgt f64 b2 0x5f30000000000000); step_ssub; (eexists; split; [reflexivity|]; cbn [fst]; split; [|lia]; split; [lia|]).
  - split; [apply fdiv_isbits|]. split; [apply pos64; lia|apply fdiv_isbits].
  - repeat (split; [assumption|]); assumption.
Qed.
Lemma scaledf_tot a b t : isbits f32 a -> isbits f32 b -> isbits f32 t -> exists r, run fuel (rs_jnf_scaled x) (nm1, a, b, t) = Some r /\ isbits f32 (fst (fst r)) /\ isbits f32 (snd (fst r)) /\ isbits f32 (snd r).
Proof.
  intros A B T. apply (run_rule (inv4 f32) (fun s => fst (fst (fst s))) (fun r => isbits f32 (fst (fst r)) /\ isbits f32 (snd (fst r)) /\ isbits f32 (snd r))); [|split; [lia|repeat (split; [assumption|]); assumption]|apply fuel_big; cbn; lia].
  intros [[[i a'] b'] t'] (Hi & A' & B' & T'). unfold rs_jnf_scaled. destruct (Z.ltb_spec 0 i); [|eexists; split; [reflexivity|repeat (split; [assumption|]); assumption]].
  cbv zeta. set (b2 := _ -' a') in *. assert (B2 : isbits f32 b2) by apply fsub_isbits. destruct (fgt f32 b2 0x5d800000); step_ssub; (eexists; split; [reflexivity|]; cbn [fst]; split; [|lia]; split; [lia|]).
  - split; [apply fdiv_isbits|]. split; [apply pos32; lia|apply fdiv_isbits].
  - repeat (split; [assumption|]); assumption.
Qed.
Definition invt (F : fmt) (s : Z * Z) : Prop := -1 <= fst s < 2147483648 /\ isbits F (snd s).
Lemma t_tot nf k t : -1 <= k < 2147483648 -> isbits f64 t -> exists r, run fuel (rs_jn_t nf x) (k, t) = Some r /\ isbits f64 r.
Proof.
  intros K T. apply (run_rule (invt f64) (fun s => 1 + fst s) (isbits f64)); [|now split|apply fuel_big; cbn [fst]; lia].
  intros [i t'] (Hi & T'). cbn [fst snd] in *. unfold rs_jn_t. destruct (Z.leb_spec 0 i); [|eexists; split; [reflexivity|exact T']].
  cbv zeta. step_ssub. eexists; split; [reflexivity|]. cbn [fst]. split; [|lia]. split; [cbn [fst]; lia|]. cbn [snd]. apply fdiv_isbits.
Qed.
Lemma tf_tot nf k t : -1 <= k < 2147483648 -> isbits f32 t -> exists r, run fuel (rs_jnf_t nf x) (k, t) = Some r /\ isbits f32 r.
Proof.
  intros K T. apply (run_rule (invt f32) (fun s => 1 + fst s) (isbits f32)); [|now split|apply fuel_big; cbn [fst]; lia].
  intros [i t'] (Hi & T'). cbn [fst snd] in *. unfold rs_jnf_t. destruct (Z.leb_spec 0 i); [|eexists; split; [reflexivity|exact T']].
  cbv zeta. step_ssub. eexists; split; [reflexivity|]. cbn [fst]. split; [|lia]. split; [cbn [fst]; lia|]. cbn [snd]. apply fdiv_isbits.
Qed.
Definition invy (F : fmt) (s : Z * Z * Z * Z) : Prop := let '(i, a, b, _) := s in 0 <= i <= nm1 /\ isbits F a /\ isbits F b.
Lemma yfwd_tot a b ib : isbits f64 a -> isbits f64 b -> exists r, run fuel (rs_yn_fwd nm1 x) (0, a, b, ib) = Some r /\ isbits f64 r.
Proof.
  intros A B. apply (run_rule (invy f64) (fun s => nm1 - fst (fst (fst s))) (isbits f64)); [|split; [lia|repeat (split; [assumption|]); assumption]|apply fuel_big; cbn; lia].
  intros [[[i a'] b'] ib'] (Hi & A' & B'). unfold rs_yn_fwd. destruct (Z.ltb_spec i nm1); cbn [andb]; [|eexists; split; [reflexivity|exact B']]. destruct (ib' =? 0xfff00000); cbn [negb]; [eexists; split; [reflexivity|exact B']|].
  step_sadd. eexists; split; [reflexivity|]. cbn [fst]. split; [|lia]. split; [lia|]. split; [exact B'|]. apply fsub_isbits.
Qed.
Lemma yfwdf_tot a b ib : isbits f32 a -> isbits f32 b -> exists r, run fuel (rs_ynf_fwd nm1 x) (0, a, b, ib) = Some r /\ isbits f32 r.
Proof.
  intros A B. apply (run_rule (invy f32) (fun s => nm1 - fst (fst (fst s))) (isbits f32)); [|split; [lia|repeat (split; [assumption|]); assumption]|apply fuel_big; cbn; lia].
  intros [[[i a'] b'] ib'] (Hi & A' & B'). unfold rs_ynf_fwd. destruct (Z.ltb_spec i nm1); cbn [andb]; [|eexists; split; [reflexivity|exact B']]. destruct (ib' =? 0xff800000); cbn [negb]; [eexists; split; [reflexivity|exact B']|].
  step_sadd. eexists; split; [reflexivity|]. cbn [fst]. split; [|lia]. split; [lia|]. split; [exact B'|]. apply fsub_isbits.
Qed.
(** the Taylor loop *)
Definition invn (F : fmt) (n : Z) (s : Z * Z * Z) : Prop := let '(i, a, b) := s in 0 <= i <= n + 2 /\ isbits F a /\ isbits F b.
Lemma tiny_tot a b : nm1 <= 40 -> isbits f64 a -> isbits f64 b -> exists r, run fuel (rs_jn_tiny nm1 x) (2, a, b) = Some r /\ isbits f64 (fst r) /\ isbits f64 (snd r).
Proof.
  intros L A B. apply (run_rule (invn f64 nm1) (fun s => nm1 + 2 - fst (fst s)) (fun r => isbits f64 (fst r) /\ isbits f64 (snd r))); [|split; [lia|repeat (split; [assumption|]); assumption]|apply fuel_big; cbn; lia].
  intros [[i a'] b'] (Hi & A' & B'). unfold rs_jn_tiny. step_sadd. destruct (Z.leb_spec i (nm1 + 1)); [|eexists; split; [reflexivity|now split]].
  cbv zeta. step_sadd. eexists; split; [reflexivity|]. cbn [fst]. split; [|lia]. split; [lia|]. split; apply fmul_isbits.
Qed.
Lemma tinyf_tot a b : nm1 <= 40 -> isbits f32 a -> isbits f32 b -> exists r, run fuel (rs_jnf_tiny nm1 x) (2, a, b) = Some r /\ isbits f32 (fst r) /\ isbits f32 (snd r).
Proof.
  intros L A B. apply (run_rule (invn f32 nm1) (fun s => nm1 + 2 - fst (fst s)) (fun r => isbits f32 (fst r) /\ isbits f32 (snd r))); [|split; [lia|repeat (split; [assumption|]); assumption]|apply fuel_big; cbn; lia].
  intros [[i a'] b'] (Hi & A' & B'). unfold rs_jnf_tiny. step_sadd. destruct (Z.leb_spec i (nm1 + 1)); [|eexists; split; [reflexivity|now split]].
  cbv zeta. step_sadd. eexists; split; [reflexivity|]. cbn [fst]. split; [|lia]. split; [lia|]. split; apply fmul_isbits.
Qed.
End Loops.

(** ** The start of the loop for k *)
Lemma w_ok F nm1 x one two l : (0 <= l)%Z -> (33 + l <= bias F)%Z -> 1 <= nm1 < 2147483648 -> finite F x = true -> (bpow radix2 (- l) <= val F x)%R -> flt F (of_int F nm1) x = false ->
  finite F one = true -> val F one = 1%R -> finite F two = true -> val F two = 2%R ->
  let nf := fadd F (of_int F nm1) one in let w := fdiv F (fmul F two nf) x in let h := fdiv F two x in
  finite F w = true /\ (2 <= val F w <= bpow radix2 (33 + l))%R /\ finite F h = true /\ (0 <= val F h <= bpow radix2 (33 + l))%R.
Proof.
  intros Hl HB N Fx Vx L F1 V1 F2 V2. pose proof (fmt_facts F) as FF. pose proof (bias_facts F) as BF. pose proof (bpow_gt_0 radix2 (- l)) as Bx.
  assert (HT : forall e v, (0 <= e)%Z -> (v <= bpow radix2 e -> rnd F v <= bpow radix2 e)%R). { intros e v He Hv. rewrite <- (repr_rnd F (bpow radix2 e)) by (apply repr_bpow; unfold emin; lia). apply rnd_le; lra. }
  assert (BB : forall e, (e <= 33 + l)%Z -> (bpow radix2 e <= bpow radix2 (bias F))%R) by (intros; apply bpow_le; lia).
  assert (NR : (0 <= IZR nm1 <= bpow radix2 31)%R). { split; [apply IZR_le; lia|]. rewrite <- IZR_pow2 by lia. apply IZR_le. change (2 ^ 31) with 2147483648. lia. }
  pose proof (BB 31 ltac:(lia)) as BB31. pose proof (BB 33 ltac:(lia)) as BB33. pose proof (BB (33 + l) ltac:(lia)) as BB62.
  destruct (rounds_fin F _ _ _ (of_int_spec F nm1)) as [Fn En]; [rewrite Rabs_pos_eq by lra; lra|].
  assert (Nv : (val F x <= val F (of_int F nm1) <= bpow radix2 31)%R).
  { split; [|rewrite En; apply HT; [lia|lra]]. apply Rnot_lt_le. intros C. assert (flt F (of_int F nm1) x = true); [|congruence]. apply flt_spec. split; [now apply finite_not_nan|]. split; [now apply finite_not_nan|]. now rewrite Fn, Fx. }
  set (m := of_int F nm1) in *. clearbody m.
  assert (E33 : (bpow radix2 33 = 8589934592)%R) by reflexivity. assert (E31 : (bpow radix2 31 = 2147483648)%R) by reflexivity. assert (E32 : (bpow radix2 32 = 4294967296)%R) by reflexivity.
  destruct (rounds_fin F _ _ _ (fadd_spec F m one Fn F1)) as [Ff Ef]; [rewrite Rabs_pos_eq by lra; lra|].
  assert (Vf : (val F m <= val F (fadd F m one) <= bpow radix2 32)%R). { rewrite Ef. split; [|apply HT; [lia|lra]]. rewrite <- (repr_rnd F (val F m)) at 1 by (apply repr_val, Fn). apply rnd_le. lra. }
  set (nf := fadd F m one) in *. clearbody nf. cbv zeta.
  destruct (rounds_fin F _ _ _ (fmul_spec F two nf F2 Ff)) as [Fg Eg]; [rewrite Rabs_pos_eq by nra; nra|].
  rewrite V2 in Eg. assert (R2 : repr F (2 * val F nf)). { rewrite Rmult_comm. change 2%R with (bpow radix2 1). apply repr_scale; [apply repr_val, Ff|lia]. } rewrite (repr_rnd F _ R2) in Eg.
  set (g := fmul F two nf) in *. clearbody g.
  assert (E62 : (bpow radix2 (33 + l) * bpow radix2 (- l) = bpow radix2 33)%R) by (rewrite <- bpow_plus; f_equal; lia).
  assert (Q : forall v, (0 <= v <= bpow radix2 33 -> 0 <= v / val F x <= bpow radix2 (33 + l))%R).
  { intros v Hv. split; [apply Rmult_le_pos; [lra|]; left; apply Rinv_0_lt_compat; lra|]. apply Rmult_le_reg_r with (val F x); [lra|]. unfold Rdiv. rewrite Rmult_assoc, Rinv_l by lra. rewrite Rmult_1_r. rewrite <- E62 in Hv. pose proof (bpow_gt_0 radix2 (33 + l)). nra. }
  pose proof (Q (val F g) ltac:(lra)) as Qg. pose proof (Q 2%R ltac:(lra)) as Qh.
  destruct (rounds_fin F _ _ _ (fdiv_spec F g x Fg Fx ltac:(lra))) as [Fw Ew]; [rewrite Rabs_pos_eq by lra; lra|].
  destruct (rounds_fin F _ _ _ (fdiv_spec F two x F2 Fx ltac:(lra))) as [Fh Eh]; [rewrite V2; rewrite Rabs_pos_eq by lra; lra|]. rewrite V2 in Eh.
  split; [exact Fw|]. split. 2:{ split; [exact Fh|]. rewrite Eh. split; [|apply HT; [lia|lra]]. rewrite <- (rnd_0 F). apply rnd_le. lra. }
  rewrite Ew. split; [|apply HT; [lia|lra]]. rewrite <- (repr_rnd F 2) by (change 2%R with (bpow radix2 1); apply repr_bpow; unfold emin; lia). apply rnd_le.
  apply Rmult_le_reg_r with (val F x); [lra|]. unfold Rdiv. rewrite Rmult_assoc, Rinv_l by lra. lra.
Qed.


Lemma two64 : val f64 0x4000000000000000 = 2%R. Proof. replace 2%R with (2 / 1)%R by lra. lit. Qed.
Lemma bnd64 : val f64 0x41cdcd6500000000 = 1000000000%R. Proof. replace 1000000000%R with (1000000000 / 1)%R by lra. lit. Qed.
Lemma lo64 : val f64 0x3e10000000000000 = bpow radix2 (-30). Proof. change (bpow radix2 (-30)) with (/ IZR (2 ^ 30))%R. replace (/ IZR (2 ^ 30))%R with (1 / IZR (2 ^ 30))%R by (unfold Rdiv; apply Rmult_1_l). change (2 ^ 30) with 1073741824. lit. Qed.
Lemma q_tot nm1 x : 1 <= nm1 < 2147483648 -> finite f64 x = true -> (bpow radix2 (-30) <= val f64 x)%R -> flt f64 (of_int f64 nm1) x = false ->
  let nf := (of_int f64 nm1) +: 0x3ff0000000000000 in let w := (0x4000000000000000 *: nf) /: x in let h := 0x4000000000000000 /: x in
  exists k, run fuel (rs_jn_q h) (1, w +: h, w, (w *: (w +: h)) -: 0x3ff0000000000000) = Some k /\ 1 <= k <= 1200000000.
Proof.
  intros N Fx Vx L. destruct (w_ok f64 nm1 x 0x3ff0000000000000 0x4000000000000000 30 ltac:(lia) ltac:(change (bias f64) with 1023; lia) N Fx Vx L ltac:(reflexivity) one64 ltac:(reflexivity) two64) as (Fw & Vw & Fh & Vh).
  cbv zeta. set (w := (0x4000000000000000 *: _) /: x) in *. set (h := 0x4000000000000000 /: x) in *. clearbody w h.
  change (rs_jn_q h) with (stepq f64 0x41cdcd6500000000 h).
  apply (loop_q f64 30 ltac:(lia)) with (K := 1200000000) (E := 63); try assumption; try reflexivity; try lia.
  - change (bpow radix2 (30 - mw f64 - 1)) with (/ IZR (2 ^ 23))%R. change (2 ^ 23) with 8388608. lra.
  - rewrite bnd64. change (bpow radix2 30) with (IZR (2 ^ 30)). change (2 ^ 30) with 1073741824. lra.
  - split; [split; [lia|reflexivity]|vm_compute; discriminate].
  - rewrite bnd64. lra.
  - split; [lia|vm_compute; discriminate].
  - apply Rle_trans with (bpow radix2 31 * bpow radix2 (63 + 1) * bpow radix2 30)%R; [apply Rmult_le_compat_r; [apply bpow_ge_0|]; apply Rmult_le_compat_r; [apply bpow_ge_0|]; change (bpow radix2 31) with (IZR (2 ^ 31)); apply IZR_le; vm_compute; discriminate|]. rewrite <- !bpow_plus. apply bpow_le. vm_compute. discriminate.
  - split; [apply Vh|]. eapply Rle_trans; [apply Vh|]. apply bpow_le. lia.
  - exact (proj2 Vh).
  - exact one64.
Qed.
Lemma backward_tot nm1 x : 1 <= nm1 < 2147483648 -> isbits f64 x -> finite f64 x = true -> (bpow radix2 (-30) <= val f64 x)%R -> flt f64 (of_int f64 nm1) x = false ->
  exists r, rs_jn_backward nm1 x = Some r /\ isbits f64 r.
Proof.
  intros N Bx Fx Vx L. destruct (q_tot nm1 x N Fx Vx L) as (k & Ek & Hk). unfold rs_jn_backward. cbv zeta in Ek |- *. rewrite Ek. cbn [bind]. clear Ek.
  set (nf := (of_int f64 nm1) +: 0x3ff0000000000000) in *. set (w := (0x4000000000000000 *: nf) /: x) in *.
  destruct (t_tot x nf k 0 ltac:(lia) ltac:(apply pos64; lia)) as (t & -> & Bt). cbn [bind].
  destruct (log_tot (fabs f64 w) (P_atrig.fabs_isbits _ _ (fdiv_isbits _ _ _))) as (lg & -> & _). cbn [bind].
  destruct (j0_tot x Bx) as (j0 & -> & _). destruct (j1_tot x Bx) as (j1 & -> & _).
  destruct (flt f64 (nf *: lg) 0x40862e42fefa39ef).
  - destruct (back_tot nm1 x ltac:(lia) t 0x3ff0000000000000 Bt ltac:(apply pos64; lia)) as ([a b] & -> & _). cbn [bind]. eexists; split; [reflexivity|]. destruct (fge f64 _ _); apply fdiv_isbits.
  - destruct (scaled_tot nm1 x ltac:(lia) t 0x3ff0000000000000 t Bt ltac:(apply pos64; lia) Bt) as ([[a b] t2] & -> & _). cbn [bind]. eexists; split; [reflexivity|]. destruct (fge f64 _ _); apply fdiv_isbits.
Qed.

Lemma two32 : val f32 0x40000000 = 2%R. Proof. replace 2%R with (2 / 1)%R by lra. lit. Qed.
Lemma bnd32 : val f32 0x461c4000 = 10000%R. Proof. replace 10000%R with (10000 / 1)%R by lra. lit. Qed.
Lemma lo32 : val f32 0x35800000 = bpow radix2 (-20). Proof. change (bpow radix2 (-20)) with (/ IZR (2 ^ 20))%R. replace (/ IZR (2 ^ 20))%R with (1 / IZR (2 ^ 20))%R by (unfold Rdiv; apply Rmult_1_l). change (2 ^ 20) with 1048576. lit. Qed.
Lemma q_totf nm1 x : 1 <= nm1 < 2147483648 -> finite f32 x = true -> (bpow radix2 (-20) <= val f32 x)%R -> flt f32 (of_int f32 nm1) x = false ->
  let nf := (of_int f32 nm1) +' 0x3f800000 in let w := (0x40000000 *' nf) /' x in let h := 0x40000000 /' x in
  exists k, run fuel (rs_jnf_q h) (1, w +' h, w, (w *' (w +' h)) -' 0x3f800000) = Some k /\ 1 <= k <= 12000.
Proof.
  intros N Fx Vx L. destruct (w_ok f32 nm1 x 0x3f800000 0x40000000 20 ltac:(lia) ltac:(change (bias f32) with 127; lia) N Fx Vx L ltac:(reflexivity) one32 ltac:(reflexivity) two32) as (Fw & Vw & Fh & Vh).
  cbv zeta. set (w := (0x40000000 *' _) /' x) in *. set (h := 0x40000000 /' x) in *. clearbody w h.
  change (rs_jnf_q h) with (stepq f32 0x461c4000 h).
  apply (loop_q f32 14 ltac:(lia)) with (K := 12000) (E := 53); try assumption; try reflexivity; try lia.
  - change (bpow radix2 (14 - mw f32 - 1)) with (/ IZR (2 ^ 10))%R. change (2 ^ 10) with 1024. lra.
  - rewrite bnd32. change (bpow radix2 14) with (IZR (2 ^ 14)). change (2 ^ 14) with 16384. lra.
  - split; [split; [lia|reflexivity]|vm_compute; discriminate].
  - rewrite bnd32. lra.
  - split; [lia|vm_compute; discriminate].
  - apply Rle_trans with (bpow radix2 31 * bpow radix2 (53 + 1) * bpow radix2 14)%R; [apply Rmult_le_compat_r; [apply bpow_ge_0|]; apply Rmult_le_compat_r; [apply bpow_ge_0|]; change (bpow radix2 31) with (IZR (2 ^ 31)); apply IZR_le; vm_compute; discriminate|]. rewrite <- !bpow_plus. apply bpow_le. vm_compute. discriminate.
  - split; [apply Vh|]. eapply Rle_trans; [apply Vh|]. apply bpow_le. lia.
  - exact (proj2 Vh).
  - exact one32.
Qed.
Lemma backwardf_tot nm1 x : 1 <= nm1 < 2147483648 -> isbits f32 x -> finite f32 x = true -> (bpow radix2 (-20) <= val f32 x)%R -> flt f32 (of_int f32 nm1) x = false ->
  exists r, rs_jnf_backward nm1 x = Some r /\ isbits f32 r.
Proof.
  intros N Bx Fx Vx L. destruct (q_totf nm1 x N Fx Vx L) as (k & Ek & Hk). unfold rs_jnf_backward. cbv zeta in Ek |- *. rewrite Ek. cbn [bind]. clear Ek.
  set (nf := (of_int f32 nm1) +' 0x3f800000) in *. set (w := (0x40000000 *' nf) /' x) in *.
  destruct (tf_tot x nf k 0 ltac:(lia) ltac:(apply pos32; lia)) as (t & -> & Bt). cbn [bind].
  destruct (logf_tot (fabs f32 w) (P_atrig.fabs_isbits _ _ (fdiv_isbits _ _ _))) as (lg & -> & _). cbn [bind].
  destruct (j0f_tot x Bx) as (j0 & -> & _). destruct (j1f_tot x Bx) as (j1 & -> & _).
  destruct (flt f32 (nf *' lg) 0x42b17180).
  - destruct (backf_tot nm1 x ltac:(lia) t 0x3f800000 Bt ltac:(apply pos32; lia)) as ([a b] & -> & _). cbn [bind]. eexists; split; [reflexivity|]. destruct (fge f32 _ _); apply fdiv_isbits.
  - destruct (scaledf_tot nm1 x ltac:(lia) t 0x3f800000 t Bt ltac:(apply pos32; lia) Bt) as ([[a b] t2] & -> & _). cbn [bind]. eexists; split; [reflexivity|]. destruct (fge f32 _ _); apply fdiv_isbits.
Qed.

(** ** The functions *)
Lemma order_ok n : in_i 32 n = true -> n < 0 -> sadd 32 n 1 = Some (n + 1) /\ sneg 32 (n + 1) = Some (- (n + 1)) /\ 0 <= - (n + 1) < 2147483648.
Proof.
  intros H L. unfold in_i in H. change (2 ^ (32 - 1)) with 2147483648 in H. apply andb_prop in H. destruct H as [H1 H2]. apply Z.leb_le in H1. apply Z.ltb_lt in H2.
  split; [apply sadd_ok; change (2 ^ (32 - 1)) with 2147483648; lia|]. split; [|lia]. unfold sneg, chk, in_i. change (2 ^ (32 - 1)) with 2147483648.
  destruct (Z.leb_spec (- (2147483648)) (- (n + 1))); [|lia]. destruct (Z.ltb_spec (- (n + 1)) 2147483648); [reflexivity|lia].
Qed.
Lemma order_ok2 n : in_i 32 n = true -> 0 < n -> ssub 32 n 1 = Some (n - 1) /\ 0 <= n - 1 < 2147483647.
Proof.
  intros H L. unfold in_i in H. change (2 ^ (32 - 1)) with 2147483648 in H. apply andb_prop in H. destruct H as [H1 H2]. apply Z.leb_le in H1. apply Z.ltb_lt in H2.
  split; [apply ssub_ok; change (2 ^ (32 - 1)) with 2147483648; lia|lia].
Qed.

Lemma low64 y : finite f64 y = true -> 0x3e10000000000000 <= y < 0x7ff0000000000000 -> (bpow radix2 (-30) <= val f64 y)%R.
Proof.
  intros Fy H. destruct (pos64 y ltac:(lia)) as (B & A & S). rewrite <- lo64. apply Rnot_lt_le. intros C. apply vlt64 in C; [|assumption]. rewrite S, A in C.
  change (key f64 0x3e10000000000000) with 0x3e10000000000000 in C. lia.
Qed.
Lemma low32 y : finite f32 y = true -> 0x35800000 <= y < 0x7f800000 -> (bpow radix2 (-20) <= val f32 y)%R.
Proof.
  intros Fy H. destruct (pos32 y ltac:(lia)) as (B & A & S). rewrite <- lo32. apply Rnot_lt_le. intros C. apply vlt32 in C; [|assumption]. rewrite S, A in C.
  change (key f32 0x35800000) with 0x35800000 in C. lia.
Qed.
(** the value for a magnitude *)
Definition jmag (nm1 y : Z) : option Z := rs_jn_pos nm1 y (y / 2 ^ 32) (y mod 2 ^ 32).
Lemma large_tot nm1 y : isbits f64 y -> exists r, rs_jn_large nm1 y = Some r /\ isbits f64 r.
Proof.
  intros B. unfold rs_jn_large. destruct (cos_tot y B) as (c & -> & _). destruct (sin_tot y B) as (s & -> & _). destruct (sqrt_total y B) as (r & -> & _). cbn [bind]. eexists; split; [reflexivity|]. apply fdiv_isbits.
Qed.
Lemma ylarge_tot nm1 y : isbits f64 y -> exists r, rs_yn_large nm1 y = Some r /\ isbits f64 r.
Proof.
  intros B. unfold rs_yn_large. destruct (sin_tot y B) as (s & -> & _). destruct (cos_tot y B) as (c & -> & _). destruct (sqrt_total y B) as (r & -> & _). cbn [bind]. eexists; split; [reflexivity|]. apply fdiv_isbits.
Qed.
Lemma jmag_tot nm1 y : 1 <= nm1 < 2147483648 -> 0 <= y <= 0x7ff0000000000000 -> exists r, jmag nm1 y = Some r /\ isbits f64 r.
Proof.
  intros N H. destruct (pos64 y ltac:(lia)) as (B & A & S). unfold jmag, rs_jn_pos.
  destruct ((Z.lor _ _ =? 0) || _) eqn:E; [exists 0; split; [reflexivity|apply pos64; lia]|]. apply orb_false_elim in E. destruct E as [_ E]. apply Z.eqb_neq in E.
  assert (L : y < 0x7ff0000000000000). { destruct (Z.eq_dec y 0x7ff0000000000000); [subst; exfalso; apply E; reflexivity|lia]. }
  assert (Fy : finite f64 y = true) by (rewrite fin64, A by assumption; apply Z.ltb_lt; lia).
  destruct (flt f64 (of_int f64 nm1) y) eqn:C.
  - destruct (0x52d00000 <=? y / 2 ^ 32); [now apply large_tot|]. destruct (j0_tot y B) as (a & -> & Ba). destruct (j1_tot y B) as (b & -> & Bb). cbn [bind]. apply fwd_tot; [lia|assumption|assumption].
  - destruct (Z.ltb_spec (y / 2 ^ 32) 0x3e100000) as [D|D].
    + destruct (Z.ltb_spec 32 nm1); [exists 0; split; [reflexivity|apply pos64; lia]|]. cbv zeta.
      destruct (tiny_tot nm1 (y *: 0x3fe0000000000000) ltac:(lia) 0x3ff0000000000000 (y *: 0x3fe0000000000000) ltac:(lia) ltac:(apply pos64; lia) (fmul_isbits _ _ _)) as ([a b] & -> & _). cbn [bind]. eexists; split; [reflexivity|apply fdiv_isbits].
    + apply backward_tot; try assumption. apply low64; [assumption|]. split; [|assumption]. apply Z.le_trans with (y / 2 ^ 32 * 2 ^ 32); [lia|]. rewrite Z.mul_comm. apply Z.mul_div_le. lia.
Qed.
Definition jmagf (nm1 y : Z) : option Z := rs_jnf_pos nm1 y y.
Lemma jmagf_tot nm1 y : 1 <= nm1 < 2147483648 -> 0 <= y <= 0x7f800000 -> exists r, jmagf nm1 y = Some r /\ isbits f32 r.
Proof.
  intros N H. destruct (pos32 y ltac:(lia)) as (B & A & S). unfold jmagf, rs_jnf_pos.
  destruct ((y =? 0) || _) eqn:E; [exists 0; split; [reflexivity|apply pos32; lia]|]. apply orb_false_elim in E. destruct E as [_ E]. apply Z.eqb_neq in E.
  assert (Fy : finite f32 y = true) by (rewrite fin32, A by assumption; apply Z.ltb_lt; lia).
  destruct (flt f32 (of_int f32 nm1) y) eqn:C.
  - destruct (j0f_tot y B) as (a & -> & Ba). destruct (j1f_tot y B) as (b & -> & Bb). cbn [bind]. apply fwdf_tot; [lia|assumption|assumption].
  - destruct (Z.ltb_spec y 0x35800000) as [D|D].
    + cbv zeta. set (m := if 8 <? nm1 then 8 else nm1). assert (M : 0 <= m <= 8) by (unfold m; destruct (Z.ltb_spec 8 nm1); lia). clearbody m.
      destruct (tinyf_tot m (0x3f000000 *' y) ltac:(lia) 0x3f800000 (0x3f000000 *' y) ltac:(lia) ltac:(apply pos32; lia) (fmul_isbits _ _ _)) as ([a b] & -> & _). cbn [bind]. eexists; split; [reflexivity|apply fdiv_isbits].
    + apply backwardf_tot; try assumption. apply low32; [assumption|lia].
Qed.
Lemma ymag_tot nm1 y : 1 <= nm1 < 2147483648 -> isbits f64 y -> forall ix, exists r, rs_yn_pos nm1 y ix = Some r /\ isbits f64 r.
Proof.
  intros N B ix. unfold rs_yn_pos. destruct (0x52d00000 <=? ix); [now apply ylarge_tot|]. destruct (y0_tot y B) as (a & -> & Ba). destruct (y1_tot y B) as (b & -> & Bb). cbn [bind]. apply yfwd_tot; [lia|assumption|assumption].
Qed.
Lemma ymagf_tot nm1 y : 1 <= nm1 < 2147483648 -> isbits f32 y -> exists r, rs_ynf_pos nm1 y = Some r /\ isbits f32 r.
Proof.
  intros N B. unfold rs_ynf_pos. destruct (y0f_tot y B) as (a & -> & Ba). destruct (y1f_tot y B) as (b & -> & Bb). cbn [bind]. apply yfwdf_tot; [lia|assumption|assumption].
Qed.

(** ** The test for NaN *)
Lemma nz_bit lx : 0 <= lx < 2 ^ 32 -> Z.shiftr (Z.lor lx (wadd 32 (unot 32 lx) 1)) 31 = if lx =? 0 then 0 else 1.
Proof.
  intros H. unfold wadd, unot. destruct (Z.eqb_spec lx 0) as [->|N]; [reflexivity|].
  rewrite Z.mod_small by lia. rewrite Z.shiftr_lor, !Z.shiftr_div_pow2 by lia.
  assert (S : forall v, 0 < v < 2 ^ 32 -> v / 2 ^ 31 = if v <? 2 ^ 31 then 0 else 1).
  { intros v V. destruct (Z.ltb_spec v (2 ^ 31)); [apply Z.div_small; lia|]. symmetry. apply Z.div_unique with (v - 2 ^ 31); lia. }
  rewrite !S by lia. destruct (Z.ltb_spec lx (2 ^ 31)), (Z.ltb_spec (2 ^ 32 - 1 - lx + 1) (2 ^ 31)); try reflexivity. lia.
Qed.
Lemma lor_1 a : Z.lor a 1 = a + 1 - a mod 2.
Proof.
  assert (H : forall b, b mod 2 = 0 -> Z.lor b 1 = b + 1).
  { intros b Hb. symmetry. rewrite <- Z.lxor_lor; [apply Z.add_nocarry_lxor|]; change 1 with (Z.ones 1); rewrite Z.land_ones by lia; exact Hb. }
  pose proof (Z.mod_pos_bound a 2 ltac:(lia)) as R. destruct (Z.eq_dec (a mod 2) 0) as [E|E]; [rewrite (H a E); lia|].
  assert (E1 : a mod 2 = 1) by lia. assert (A : a = Z.lor (a - 1) 1). { rewrite H; [lia|]. rewrite Zminus_mod, E1. reflexivity. }
  rewrite A at 1. rewrite <- Z.lor_assoc. change (Z.lor 1 1) with 1. rewrite <- A. lia.
Qed.
Lemma isnan_words x : isbits f64 x -> rs_jn_isnan (a64 x / 2 ^ 32) (get_low_word x) = isnan f64 x.
Proof.
  intros B. destruct (P_dom.lw64 x B) as [E R]. rewrite (nan64 x B). unfold rs_jn_isnan. rewrite nz_bit by exact R.
  set (h := a64 x / 2 ^ 32) in *. set (l := get_low_word x) in *. rewrite E. clearbody h l. destruct (Z.eqb_spec l 0) as [->|N].
  - rewrite Z.lor_0_r. destruct (Z.ltb_spec 0x7ff00000 h), (Z.ltb_spec 0x7ff0000000000000 (h * 2 ^ 32 + 0)); try reflexivity; lia.
  - rewrite lor_1. pose proof (Z.div_mod h 2 ltac:(lia)) as D. pose proof (Z.mod_pos_bound h 2 ltac:(lia)).
    destruct (Z.ltb_spec 0x7ff00000 (h + 1 - h mod 2)), (Z.ltb_spec 0x7ff0000000000000 (h * 2 ^ 32 + l)); try reflexivity; lia.
Qed.

(** ** What the functions compute *)
Lemma land1 n : negb (Z.land n 1 =? 0) = Z.odd n.
Proof. change 1 with (Z.ones 1). rewrite Z.land_ones by lia. change (2 ^ 1) with 2. rewrite Zmod_odd. destruct (Z.odd n); reflexivity. Qed.
Lemma lw_a64 x : isbits f64 x -> get_low_word x = a64 x mod 2 ^ 32.
Proof. intros B. destruct (P_dom.lw64 x B) as [E R]. rewrite E at 1. rewrite Z.add_comm, Z.mod_add by lia. symmetry. now apply Z.mod_small. Qed.
Lemma jn_eq n x : in_i 32 n = true -> isbits f64 x -> rs_jn n x =
  if isnan f64 x then Some x else if n =? 0 then rs_j0 x else if n =? 1 then rs_j1 x else if n =? -1 then rs_j1 (fneg f64 x)
  else let* b := jmag (Z.abs n - 1) (a64 x) in Some (if xorb (n <? 0) (signbit f64 x) && Z.odd n then fneg f64 b else b).
Proof.
  intros N B. unfold rs_jn. cbv zeta. unfold get_high_word. rewrite (ix64 x B), (hw64 x B), (shr31 _ _ (a64_hi x B)), (isnan_words x B).
  destruct (isnan f64 x); [reflexivity|]. destruct (Z.eqb_spec n 0) as [->|N0]; [reflexivity|].
  rewrite land1. assert (SB : negb (bs (signbit f64 x) =? 0) = signbit f64 x) by (destruct (signbit f64 x); reflexivity). rewrite SB.
  unfold jmag. destruct (Z.ltb_spec n 0) as [L|L].
  - destruct (order_ok n N L) as (-> & E & _). cbn [bind]. rewrite E. cbn [bind]. destruct (Z.eqb_spec n 1); [lia|].
    destruct (Z.eqb_spec (- (n + 1)) 0), (Z.eqb_spec n (-1)); try lia; [reflexivity|]. rewrite P_sym3.fabs64, (a64_fneg x B), (lw_a64 x B). replace (Z.abs n - 1) with (- (n + 1)) by lia. destruct (signbit _ x); reflexivity.
  - destruct (order_ok2 n N ltac:(lia)) as (-> & _). cbn [bind]. destruct (Z.eqb_spec n (-1)); [lia|].
    destruct (Z.eqb_spec (n - 1) 0), (Z.eqb_spec n 1); try lia; [reflexivity|]. rewrite P_sym3.fabs64, (lw_a64 x B). replace (Z.abs n - 1) with (n - 1) by lia. destruct (signbit _ x); reflexivity.
Qed.
Lemma jnf_eq n x : in_i 32 n = true -> isbits f32 x -> rs_jnf n x =
  if isnan f32 x then Some x else if n =? 0 then rs_j0f x else if n =? 1 then rs_j1f x else if n =? -1 then rs_j1f (fneg f32 x)
  else let* b := jmagf (Z.abs n - 1) (a32 x) in Some (if xorb (n <? 0) (signbit f32 x) && Z.odd n then fneg f32 b else b).
Proof.
  intros N B. unfold rs_jnf. cbv zeta. rewrite (sg32 x B), land_a32, <- (nan32 x B).
  destruct (isnan f32 x); [reflexivity|]. destruct (Z.eqb_spec n 0) as [->|N0]; [reflexivity|].
  rewrite land1. assert (SB : negb (bs (signbit f32 x) =? 0) = signbit f32 x) by (destruct (signbit f32 x); reflexivity). rewrite SB.
  unfold jmagf. destruct (Z.ltb_spec n 0) as [L|L].
  - destruct (order_ok n N L) as (-> & E & _). cbn [bind]. rewrite E. cbn [bind]. destruct (Z.eqb_spec n 1); [lia|].
    destruct (Z.eqb_spec (- (n + 1)) 0), (Z.eqb_spec n (-1)); try lia; [reflexivity|]. rewrite P_sym3.fabs32, (a32_fneg x B). replace (Z.abs n - 1) with (- (n + 1)) by lia. destruct (signbit _ x); reflexivity.
  - destruct (order_ok2 n N ltac:(lia)) as (-> & _). cbn [bind]. destruct (Z.eqb_spec n (-1)); [lia|].
    destruct (Z.eqb_spec (n - 1) 0), (Z.eqb_spec n 1); try lia; [reflexivity|]. rewrite P_sym3.fabs32. replace (Z.abs n - 1) with (n - 1) by lia. destruct (signbit _ x); reflexivity.
Qed.
Definition negif (F : fmt) (s : bool) (b : Z) : Z := if s then fneg F b else b.
Lemma yn_eq n x : in_i 32 n = true -> isbits f64 x -> rs_yn n x =
  if isnan f64 x then Some x else if signbit f64 x && negb (iszero f64 x) then Some (0 /: 0) else if isinf f64 x then Some 0
  else if n =? 0 then rs_y0 x
  else let* b := (if Z.abs n =? 1 then rs_y1 x else rs_yn_pos (Z.abs n - 1) x (a64 x / 2 ^ 32)) in Some (negif f64 ((n <? 0) && Z.odd n) b).
Proof.
  intros N B. unfold rs_yn. cbv zeta. unfold get_high_word. rewrite (ix64 x B), (hw64 x B), (shr31 _ _ (a64_hi x B)), (isnan_words x B). rewrite (nan64 x B).
  destruct (Z.ltb_spec 0x7ff0000000000000 (a64 x)) as [NN|NN]; [reflexivity|].
  assert (SB : negb (bs (signbit f64 x) =? 0) = signbit f64 x) by (destruct (signbit f64 x); reflexivity). rewrite SB.
  destruct (P_dom.lw64 x B) as [E R]. pose proof (a64_hi x B) as R2.
  assert (ZE : (Z.lor (a64 x / 2 ^ 32) (get_low_word x) =? 0) = iszero f64 x).
  { rewrite P_nan.lor_eq0 by lia. rewrite (zer64 x B). destruct (Z.eqb_spec (a64 x) 0), (Z.eqb_spec (a64 x / 2 ^ 32) 0), (Z.eqb_spec (get_low_word x) 0); cbn [andb]; lia || reflexivity. }
  rewrite ZE. destruct (signbit f64 x && negb (iszero f64 x)); [reflexivity|].
  assert (IE : (a64 x / 2 ^ 32 =? 0x7ff00000) = isinf f64 x).
  { rewrite (inf64 x B). destruct (Z.eqb_spec (a64 x / 2 ^ 32) 0x7ff00000), (Z.eqb_spec (a64 x) 0x7ff0000000000000); lia || reflexivity. }
  rewrite IE. destruct (isinf f64 x); [reflexivity|].
  destruct (Z.eqb_spec n 0) as [->|N0]; [reflexivity|]. rewrite land1. unfold negif. destruct (Z.ltb_spec n 0) as [L|L].
  - destruct (order_ok n N L) as (-> & E2 & _). cbn [bind]. rewrite E2. cbn [bind andb].
    destruct (Z.eqb_spec (- (n + 1)) 0), (Z.eqb_spec (Z.abs n) 1); try lia; [reflexivity|]. replace (Z.abs n - 1) with (- (n + 1)) by lia. reflexivity.
  - destruct (order_ok2 n N ltac:(lia)) as (-> & _). cbn [bind andb].
    destruct (Z.eqb_spec (n - 1) 0), (Z.eqb_spec (Z.abs n) 1); try lia; [reflexivity|]. replace (Z.abs n - 1) with (n - 1) by lia. reflexivity.
Qed.
Lemma ynf_eq n x : in_i 32 n = true -> isbits f32 x -> rs_ynf n x =
  if isnan f32 x then Some x else if signbit f32 x && negb (iszero f32 x) then Some (0 /' 0) else if isinf f32 x then Some 0
  else if n =? 0 then rs_y0f x
  else let* b := (if Z.abs n =? 1 then rs_y1f x else rs_ynf_pos (Z.abs n - 1) x) in Some (negif f32 ((n <? 0) && Z.odd n) b).
Proof.
  intros N B. unfold rs_ynf. cbv zeta. rewrite (sg32 x B), land_a32, <- (nan32 x B), <- (zer32 x B), <- (inf32 x B).
  destruct (isnan f32 x); [reflexivity|].
  assert (SB : negb (bs (signbit f32 x) =? 0) = signbit f32 x) by (destruct (signbit f32 x); reflexivity). rewrite SB.
  destruct (signbit f32 x && negb (iszero f32 x)); [reflexivity|]. destruct (isinf f32 x); [reflexivity|].
  destruct (Z.eqb_spec n 0) as [->|N0]; [reflexivity|]. rewrite land1. unfold negif. destruct (Z.ltb_spec n 0) as [L|L].
  - destruct (order_ok n N L) as (-> & E2 & _). cbn [bind]. rewrite E2. cbn [bind andb].
    destruct (Z.eqb_spec (- (n + 1)) 0), (Z.eqb_spec (Z.abs n) 1); try lia; [reflexivity|]. replace (Z.abs n - 1) with (- (n + 1)) by lia. reflexivity.
  - destruct (order_ok2 n N ltac:(lia)) as (-> & _). cbn [bind andb].
    destruct (Z.eqb_spec (n - 1) 0), (Z.eqb_spec (Z.abs n) 1); try lia; [reflexivity|]. replace (Z.abs n - 1) with (n - 1) by lia. reflexivity.
Qed.

(** ** The functions return *)
Lemma in_i32 n : in_i 32 n = true -> -2147483648 <= n < 2147483648.
Proof. intros H. unfold in_i in H. change (2 ^ (32 - 1)) with 2147483648 in H. apply andb_prop in H. destruct H as [H1 H2]. apply Z.leb_le in H1. apply Z.ltb_lt in H2. lia. Qed.
Lemma jn_tot n x : in_i 32 n = true -> isbits f64 x -> exists r, rs_jn n x = Some r /\ isbits f64 r.
Proof.
  intros N B. rewrite (jn_eq n x N B). pose proof (in_i32 n N) as NR. destruct (isnan f64 x) eqn:NA; [now exists x|]. destruct (Z.eqb_spec n 0); [now apply j0_tot|]. destruct (Z.eqb_spec n 1); [now apply j1_tot|].
  destruct (Z.eqb_spec n (-1)); [apply j1_tot; now apply fneg_isbits|]. rewrite (nan64 x B) in NA. apply Z.ltb_ge in NA. destruct (bits64 x B) as [_ R].
  destruct (jmag_tot (Z.abs n - 1) (a64 x) ltac:(lia) ltac:(lia)) as (b & -> & Bb). cbn [bind]. eexists; split; [reflexivity|]. destruct (_ && _); [now apply fneg_isbits|exact Bb].
Qed.
Lemma jnf_tot n x : in_i 32 n = true -> isbits f32 x -> exists r, rs_jnf n x = Some r /\ isbits f32 r.
Proof.
  intros N B. rewrite (jnf_eq n x N B). pose proof (in_i32 n N) as NR. destruct (isnan f32 x) eqn:NA; [now exists x|]. destruct (Z.eqb_spec n 0); [now apply j0f_tot|]. destruct (Z.eqb_spec n 1); [now apply j1f_tot|].
  destruct (Z.eqb_spec n (-1)); [apply j1f_tot; now apply fneg_isbits|]. rewrite (nan32 x B) in NA. apply Z.ltb_ge in NA. destruct (bits32 x B) as [_ R].
  destruct (jmagf_tot (Z.abs n - 1) (a32 x) ltac:(lia) ltac:(lia)) as (b & -> & Bb). cbn [bind]. eexists; split; [reflexivity|]. destruct (_ && _); [now apply fneg_isbits|exact Bb].
Qed.
Lemma yn_tot n x : in_i 32 n = true -> isbits f64 x -> exists r, rs_yn n x = Some r /\ isbits f64 r.
Proof.
  intros N B. rewrite (yn_eq n x N B). pose proof (in_i32 n N) as NR. destruct (isnan f64 x); [now exists x|]. destruct (_ && _); [eexists; split; [reflexivity|apply fdiv_isbits]|]. destruct (isinf f64 x); [exists 0; split; [reflexivity|apply pos64; lia]|].
  destruct (Z.eqb_spec n 0); [now apply y0_tot|]. destruct (Z.eqb_spec (Z.abs n) 1).
  - destruct (y1_tot x B) as (b & -> & Bb). cbn [bind]. eexists; split; [reflexivity|]. unfold negif. destruct (_ && _); [now apply fneg_isbits|exact Bb].
  - destruct (ymag_tot (Z.abs n - 1) x ltac:(lia) B (a64 x / 2 ^ 32)) as (b & -> & Bb). cbn [bind]. eexists; split; [reflexivity|]. unfold negif. destruct (_ && _); [now apply fneg_isbits|exact Bb].
Qed.
Lemma ynf_tot n x : in_i 32 n = true -> isbits f32 x -> exists r, rs_ynf n x = Some r /\ isbits f32 r.
Proof.
  intros N B. rewrite (ynf_eq n x N B). pose proof (in_i32 n N) as NR. destruct (isnan f32 x); [now exists x|]. destruct (_ && _); [eexists; split; [reflexivity|apply fdiv_isbits]|]. destruct (isinf f32 x); [exists 0; split; [reflexivity|apply pos32; lia]|].
  destruct (Z.eqb_spec n 0); [now apply y0f_tot|]. destruct (Z.eqb_spec (Z.abs n) 1).
  - destruct (y1f_tot x B) as (b & -> & Bb). cbn [bind]. eexists; split; [reflexivity|]. unfold negif. destruct (_ && _); [now apply fneg_isbits|exact Bb].
  - destruct (ymagf_tot (Z.abs n - 1) x ltac:(lia) B) as (b & -> & Bb). cbn [bind]. eexists; split; [reflexivity|]. unfold negif. destruct (_ && _); [now apply fneg_isbits|exact Bb].
Qed.
