(** The iterations of generic/sqrt.rs for each format. *)
From Coq Require Import ZArith Reals Lia Lra Psatz Bool List.
From Flocq Require Import Core.
From Verif Require Import Base Spec Format P_format Ieee P_ieee P_real P_key P_round P_round2 P_bits P_trait P_scalbn P_fma2 M_sqrt P_sqrt.
Open Scope Z_scope.

Lemma ra_shift w w' m r : w <= w' -> 0 <= w -> ra w' m (r * 2 ^ (w' - w)) = ra w m r.
Proof.
  intros H H0. unfold ra. f_equal. rewrite mult_IZR, IZR_pow2, Rmult_assoc, bp_split by lia. do 2 f_equal. lia.
Qed.
Definition quad (E : R) : R := (3/2 * (E * E) + 1/2 * (E * E * E))%R.

Lemma quad_pos E : (0 <= E)%R -> (0 <= quad E)%R.
Proof. intros H. unfold quad. pose proof (Rmult_le_pos _ _ H H) as A. pose proof (Rmult_le_pos _ _ A H). lra. Qed.

Section Sets.
Variables (w : Z) (m : R).
Hypothesis Hw : 16 <= w.
Hypothesis Hm : (1 <= m < 4)%R.
Let h := bpow radix2 (2 - w).
Notation ra := (ra w m). Notation sb := (sb w m).

(** last set, two rounds *)
Lemma final2 R M E : 0 <= M -> 0 <= R -> (Rabs (ra R - 1) <= E)%R -> (0 <= E <= 1 / 256)%R -> (IZR M * h = m)%R ->
  exists r s, goldschmidt w R M 2 true = Some (r, s) /\ 0 <= s /\ (- quad E - 3 * h <= sb (s * 2) - 1 <= h)%R.
Proof.
  intros HM HR Ha HE EM. pose proof (h_range w Hw) as HH. fold h in HH.
  destruct (round_first w m Hw Hm M R E 0 HM HR Ha HE ltac:(lra)) as (S0 & B0); [fold h; lra|]. fold h in B0.
  destruct (round_gen w m Hw Hm (wmulh w M R) R E 1 0 S0 HR Ha HE ltac:(lra) ltac:(lra)) as (U0 & _ & S1 & _ & _ & K & _); [fold h; lra|].
  fold h in K. cbv zeta in K, U0, S1. set (U := wsub w (3 * 2 ^ (w - 2)) (wmulh w (wmulh w M R) R)) in *.
  unfold goldschmidt. rewrite (three w) by exact Hw. cbn [bind]. change (Z.of_nat 2) with 2.
  rewrite (loop_step w Hw), (loop_step w Hw). cbv zeta. cbn [Z.ltb Z.compare andb orb negb Z.add Pos.add Pos.compare Pos.compare_cont gold_loop].
  eexists _, _. split; [reflexivity|]. fold U. split; [lia|]. unfold quad. lra.
Qed.
(** last set, three rounds *)
Lemma final3 R M E E1 x : 0 <= M -> 0 <= R -> (Rabs (ra R - 1) <= E)%R -> (0 <= E <= 1 / 256)%R -> (IZR M * h = m)%R ->
  (IZR R * bpow radix2 (- w) <= 1 - x)%R -> (0 <= x <= 1 / 10)%R -> (4 * h < x * x)%R ->
  (quad E + 11/10 * h <= E1)%R -> (0 <= E1 <= 1 / 256)%R ->
  exists r s, goldschmidt w R M 3 true = Some (r, s) /\ 0 <= s /\ (- quad E1 - 4 * h <= sb (s * 2) - 1 <= 2 * h)%R.
Proof.
  intros HM HR Ha HE EM Hx1 Hx2 Hx3 HE1 HE1'. pose proof (h_range w Hw) as HH. fold h in HH.
  destruct (round_first w m Hw Hm M R E 0 HM HR Ha HE ltac:(lra)) as (S0 & B0); [fold h; lra|]. fold h in B0.
  destruct (round_gen w m Hw Hm (wmulh w M R) R E 1 0 S0 HR Ha HE ltac:(lra) ltac:(lra)) as (U0 & R1 & S1 & A1 & B1 & _ & KU); [fold h; lra|].
  fold h in A1, B1, KU. cbv zeta in *. set (U := wsub w (3 * 2 ^ (w - 2)) (wmulh w (wmulh w M R) R)) in *.
  destruct (no_wrap_first w m Hw Hm (wmulh w M R) R x 1 S0 HR ltac:(lra)) as [NW _]; try (fold h; fold U; assumption); try (fold h; lra); try (apply Rabs_le; apply Rabs_le_inv in Ha; lra).
  fold U in NW.
  destruct (round_gen w m Hw Hm (wmulh w (wmulh w M R) U * 2) (wmulh w R U * 2) E1 (301/100) 1) as (U1 & _ & S2 & _ & _ & K & _); try assumption; try lia; try lra.
  { apply Rabs_le. pose proof (quad_pos E ltac:(lra)). unfold quad in *. lra. }
  { fold h. lra. }
  fold h in K. cbv zeta in *.
  unfold goldschmidt. rewrite (three w) by exact Hw. cbn [bind]. change (Z.of_nat 3) with 3.
  rewrite !(loop_step w Hw). cbv zeta. cbn [Z.ltb Z.compare andb orb negb Z.add Pos.add Pos.succ Pos.compare Pos.compare_cont gold_loop].
  fold U. rewrite (Z.mod_small (wmulh w R U * 2)) by lia. rewrite (Z.mod_small (wmulh w (wmulh w M R) U * 2)) by lia.
  eexists _, _. split; [reflexivity|]. split; [lia|]. unfold quad. lra.
Qed.
(** one round on the leading bits *)
Lemma early1 R M E E1 x : 0 <= M -> 0 <= R -> (Rabs (ra R - 1) <= E)%R -> (0 <= E <= 1 / 256)%R -> (m - h <= IZR M * h <= m)%R ->
  (IZR R * bpow radix2 (- w) <= 1 - x)%R -> (0 <= x <= 1 / 10)%R -> (4 * h < x * x)%R ->
  (quad E + 16/10 * h <= E1)%R ->
  exists r s, goldschmidt w R M 1 false = Some (r, s) /\ 0 <= r < 2 ^ w /\ (Rabs (ra r - 1) <= E1)%R /\ (IZR r * bpow radix2 (- w) <= 1 - x * x + 4 * h)%R.
Proof.
  intros HM HR Ha HE EM Hx1 Hx2 Hx3 HE1. pose proof (h_range w Hw) as HH. fold h in HH.
  destruct (round_first w m Hw Hm M R E 1 HM HR Ha HE ltac:(lra)) as (S0 & B0); [fold h; lra|]. fold h in B0.
  destruct (round_gen w m Hw Hm (wmulh w M R) R E (201/100) 0 S0 HR Ha HE ltac:(lra) ltac:(lra)) as (U0 & R1 & S1 & A1 & B1 & _ & KU); [fold h; lra|].
  fold h in A1, B1, KU. cbv zeta in *. set (U := wsub w (3 * 2 ^ (w - 2)) (wmulh w (wmulh w M R) R)) in *.
  destruct (no_wrap_first w m Hw Hm (wmulh w M R) R x (201/100) S0 HR ltac:(lra)) as [NW NX]; try (fold h; fold U; assumption); try (fold h; lra); try (apply Rabs_le; apply Rabs_le_inv in Ha; lra).
  fold U in NW, NX.
  unfold goldschmidt. rewrite (three w) by exact Hw. cbn [bind]. change (Z.of_nat 1) with 1.
  rewrite !(loop_step w Hw). cbv zeta. cbn [Z.ltb Z.compare andb orb negb Z.add Pos.add Pos.succ Pos.compare Pos.compare_cont gold_loop].
  fold U. rewrite (Z.mod_small (wmulh w R U * 2)) by lia.
  eexists _, _. split; [reflexivity|]. split; [lia|]. split; [|exact NX]. apply Rabs_le. pose proof (quad_pos E ltac:(lra)). unfold quad in *. lra.
Qed.
(** two rounds on the leading bits; [spec] covers operands next to one *)
Lemma early2 R M E E1 E2 x : 0 <= M -> 0 <= R -> (Rabs (ra R - 1) <= E)%R -> (0 <= E <= 1 / 256)%R -> (m - h <= IZR M * h <= m)%R ->
  (IZR R * bpow radix2 (- w) <= 1 - x)%R -> (0 <= x <= 1 / 10)%R -> (4 * h < x * x)%R ->
  (quad E + 16/10 * h <= E1)%R -> (0 <= E1 <= 1 / 256)%R -> (quad E1 + 13/5 * h <= E2)%R ->
  ((m < 1 + 6 * h)%R -> let S0 := wmulh w M R in let U0 := wsub w (3 * 2 ^ (w - 2)) (wmulh w S0 R) in
     let R1 := wmulh w R U0 * 2 in let S1 := wmulh w S0 U0 * 2 in
     let U1 := wsub w (3 * 2 ^ (w - 2)) (wmulh w S1 R1) in wmulh w R1 U1 * 2 < 2 ^ w) ->
  exists r s, goldschmidt w R M 2 false = Some (r, s) /\ 0 <= r < 2 ^ w /\ (Rabs (ra r - 1) <= E2)%R.
Proof.
  intros HM HR Ha HE EM Hx1 Hx2 Hx3 HE1 HE1' HE2 SPC. pose proof (h_range w Hw) as HH. fold h in HH.
  destruct (round_first w m Hw Hm M R E 1 HM HR Ha HE ltac:(lra)) as (S0 & B0); [fold h; lra|]. fold h in B0.
  destruct (round_gen w m Hw Hm (wmulh w M R) R E (201/100) 0 S0 HR Ha HE ltac:(lra) ltac:(lra)) as (U0 & R1 & S1 & A1 & B1 & _ & KU); [fold h; lra|].
  fold h in A1, B1, KU. cbv zeta in *. set (U := wsub w (3 * 2 ^ (w - 2)) (wmulh w (wmulh w M R) R)) in *.
  destruct (no_wrap_first w m Hw Hm (wmulh w M R) R x (201/100) S0 HR ltac:(lra)) as [NW _]; try (fold h; fold U; assumption); try (fold h; lra); try (apply Rabs_le; apply Rabs_le_inv in Ha; lra).
  fold U in NW.
  destruct (round_gen w m Hw Hm (wmulh w (wmulh w M R) U * 2) (wmulh w R U * 2) E1 (404/100) 1) as (U1 & R2 & S2 & A2 & _ & _ & _); try assumption; try lia; try lra.
  { apply Rabs_le. pose proof (quad_pos E ltac:(lra)). unfold quad in *. lra. }
  { fold h. lra. }
  fold h in A2. cbv zeta in *. set (R1v := wmulh w R U * 2) in *. set (S1v := wmulh w (wmulh w M R) U * 2) in *.
  set (U1v := wsub w (3 * 2 ^ (w - 2)) (wmulh w S1v R1v)) in *.
  assert (NW2 : wmulh w R1v U1v * 2 < 2 ^ w).
  { destruct (no_wrap_near w m Hw Hm (wmulh w R1v U1v * 2)) as [G|G]; [fold h; lra|exact G|]. apply SPC. exact G. }
  unfold goldschmidt. rewrite (three w) by exact Hw. cbn [bind]. change (Z.of_nat 2) with 2.
  rewrite !(loop_step w Hw). cbv zeta. cbn [Z.ltb Z.compare andb orb negb Z.add Pos.add Pos.succ Pos.compare Pos.compare_cont gold_loop].
  fold U. fold R1v S1v. rewrite (Z.mod_small R1v) by lia. rewrite (Z.mod_small S1v) by lia. fold U1v. rewrite (Z.mod_small (wmulh w R1v U1v * 2)) by lia.
  eexists _, _. split; [reflexivity|]. split; [lia|]. apply Rabs_le. pose proof (quad_pos E1 ltac:(lra)). unfold quad in *. lra.
Qed.
End Sets.

(** ** the estimate of each format *)
Definition idx (F : fmt) (ix : Z) : Z := (ix / 2 ^ (SIG_BITS F - 6)) mod 128.
Lemma gold_zero w r s fin : 16 <= w -> goldschmidt w r s 0 fin = Some (r, s).
Proof. intros H. unfold goldschmidt. rewrite three by exact H. reflexivity. Qed.
Lemma ra_tab w m t : 16 <= w -> ra w m (t * 2 ^ (w - 16)) = (IZR t / 65536 * R_sqrt.sqrt m)%R.
Proof.
  intros H. unfold ra. f_equal. rewrite mult_IZR, IZR_pow2, Rmult_assoc, bp_split by lia.
  replace (w - 16 + - w) with (-16) by lia. change (bpow radix2 (-16)) with (/ 65536)%R. reflexivity.
Qed.
Lemma tab_scale w t : 16 <= w -> 0 < t <= 0xff02 -> (IZR (t * 2 ^ (w - 16)) * bpow radix2 (- w) <= 1 - 254 / 65536)%R.
Proof.
  intros H Ht. rewrite mult_IZR, IZR_pow2, Rmult_assoc, bp_split by lia.
  replace (w - 16 + - w) with (-16) by lia. change (bpow radix2 (-16)) with (/ 65536)%R.
  destruct Ht as [_ Ht]. apply IZR_le in Ht. lra.
Qed.
(** the leading [v] bits of a mantissa of [w] bits *)
Lemma lead w v M m : 2 <= v <= w -> 0 <= M -> (IZR M * bpow radix2 (2 - w) = m)%R ->
  (m - bpow radix2 (2 - v) <= IZR (M / 2 ^ (w - v)) * bpow radix2 (2 - v) <= m)%R.
Proof.
  intros Hv HM <-. pose proof (Z.div_mod M (2 ^ (w - v)) ltac:(pose proof (pow2_pos (w - v)); lia)) as D.
  pose proof (Z.mod_pos_bound M (2 ^ (w - v)) ltac:(pose proof (pow2_pos (w - v)); lia)) as B.
  set (q := M / 2 ^ (w - v)) in *. set (r := M mod 2 ^ (w - v)) in *.
  assert (EM : (IZR M * bpow radix2 (2 - w) = IZR q * bpow radix2 (2 - v) + IZR r * bpow radix2 (2 - w))%R).
  { rewrite D, plus_IZR, mult_IZR, IZR_pow2 by lia. rewrite Rmult_plus_distr_r. f_equal.
    rewrite (Rmult_comm (bpow radix2 (w - v))), Rmult_assoc, bp_split. do 2 f_equal. lia. }
  rewrite EM. destruct B as [B1 B2]. apply IZR_le in B1. apply IZR_lt in B2. rewrite IZR_pow2 in B2 by lia.
  pose proof (bpow_gt_0 radix2 (2 - w)) as P.
  assert (IZR r * bpow radix2 (2 - w) <= bpow radix2 (2 - v))%R.
  { replace (2 - v) with (w - v + (2 - w)) by lia. rewrite <- bp_split. apply Rmult_le_compat_r; lra. }
  assert (0 <= IZR r * bpow radix2 (2 - w))%R by (apply Rmult_le_pos; lra). lra.
Qed.
(** few leading parts are close to one *)
Lemma lead_near w v M k : 2 <= v <= w -> 0 <= k -> 2 ^ (w - 2) <= M -> (IZR M * bpow radix2 (2 - w) < 1 + IZR k * bpow radix2 (2 - v))%R ->
  2 ^ (v - 2) <= M / 2 ^ (w - v) < 2 ^ (v - 2) + k.
Proof.
  intros Hv Hk HM HL. pose proof (pow2_pos (w - v) ltac:(lia)) as P. split.
  - apply Z.div_le_lower_bound; [exact P|]. rewrite <- pow2_split by lia. replace (w - v + (v - 2)) with (w - 2) by lia. exact HM.
  - apply Z.div_lt_upper_bound; [exact P|]. apply lt_IZR. rewrite mult_IZR, plus_IZR, !IZR_pow2 by lia.
    apply Rmult_lt_reg_r with (bpow radix2 (2 - w)); [apply bpow_gt_0|]. apply Rlt_le_trans with (1 := HL). right.
    rewrite Rmult_plus_distr_l, Rmult_plus_distr_r, bp_split.
    replace (bpow radix2 (w - v + (v - 2)) * bpow radix2 (2 - w))%R with 1%R
      by (rewrite bp_split; replace (w - v + (v - 2) + (2 - w)) with 0 by lia; reflexivity).
    f_equal. rewrite (Rmult_comm (bpow radix2 (w - v))), Rmult_assoc, bp_split. do 2 f_equal. lia.
Qed.
Section Iter.
Variables (F : fmt) (C : sqrt_cfg) (ix M : Z).
Let w := BITS F.
Let m := (IZR M * bpow radix2 (2 - w))%R.
Hypothesis HM : 2 ^ (w - 2) <= M < 2 ^ w.
Hypothesis Hix : 0 <= ix < 2 ^ w.
Hypothesis HS : in_slot (idx F ix) m.
Definition iter_ok : Prop := exists s, sqrt_iter F C ix M = Some s /\ 0 <= s /\ (Rabs (sb w m (s * 2) - 1) < bpow radix2 (- (SIG_BITS F + 2)))%R.
End Iter.

Ltac start :=
  intros HM Hix HS; unfold iter_ok, sqrt_iter;
  match goal with |- context [ushr ?w ?ix ?n] => rewrite (ushr_ok w ix n) by (cbn; lia) end; cbn [bind];
  match goal with |- context [Z.land ?a 127] => change 127 with (2 ^ 7 - 1); rewrite (land_pow2m1 a 7) by lia; change (2 ^ 7) with 128 end;
  match goal with H : in_slot ?i ?m |- _ => 
    destruct (tab_ok i m ltac:(unfold idx; apply Z.mod_pos_bound; reflexivity) H) as (t & Et & Ht & Ea & Ene & Hm) end;
  unfold idx in *; match goal with H : tab_get _ _ = Some _ |- _ => rewrite H end; cbn [bind].

Lemma iter16 ix M : 2 ^ (BITS f16 - 2) <= M < 2 ^ BITS f16 -> 0 <= ix < 2 ^ BITS f16 -> in_slot (idx f16 ix) (IZR M * bpow radix2 (2 - BITS f16)) ->
  iter_ok f16 cfg16 ix M.
Proof.
  start. change (BITS f16) with 16 in *. cbn [set1 set2 cfg16 rounds1 rounds2 rounds3].
  set (m := (IZR M * bpow radix2 (2 - 16))%R) in *.
  rewrite ushl_ok by lia. cbn [bind]. rewrite ?ushr_ok by lia. cbn [bind]. 
  change (16 - 16) with 0. change (2 ^ 0) with 1. rewrite ?Z.div_1_r, ?Z.mul_1_r.
  rewrite (Z.mod_small t) by lia. rewrite ?ucast_ok by lia. cbn [bind]. rewrite ?gold_zero by lia. cbn [bind fst].
  rewrite ushl_ok by lia. cbn [bind]. rewrite ?ushr_ok by lia. cbn [bind].
  change (2 ^ 0) with 1. rewrite ?Z.div_1_r, ?Z.mul_1_r.
  rewrite (Z.mod_small t) by lia. rewrite ?ucast_ok by lia. cbn [bind]. rewrite ?gold_zero by lia. cbn [bind fst].
  rewrite ushl_ok by lia. cbn [bind]. change (2 ^ 0) with 1. rewrite Z.mul_1_r. rewrite (Z.mod_small t) by lia.
  pose proof (ra_tab 16 m t ltac:(lia)) as RT. change (t * 2 ^ (16 - 16)) with (t * 1) in RT. rewrite Z.mul_1_r in RT. rewrite <- RT in Ea.
  destruct (final2 16 m ltac:(lia) Hm t M (1/256) ltac:(lia) ltac:(lia) Ea ltac:(lra) eq_refl) as (r & s & Eg & S0 & B).
  rewrite Eg. cbn [bind snd]. exists s. split; [reflexivity|]. split; [exact S0|].
  change (bpow radix2 (2 - 16)) with (/ 16384)%R in B. unfold quad in B. change (bpow radix2 (- (SIG_BITS f16 + 2))) with (/ 4096)%R.
  apply Rabs_lt. lra.
Qed.
Lemma iter32 ix M : 2 ^ (BITS f32 - 2) <= M < 2 ^ BITS f32 -> 0 <= ix < 2 ^ BITS f32 -> in_slot (idx f32 ix) (IZR M * bpow radix2 (2 - BITS f32)) ->
  iter_ok f32 cfg32 ix M.
Proof.
  start. change (BITS f32) with 32 in *. cbn [set1 set2 cfg32 rounds1 rounds2 rounds3].
  set (m := (IZR M * bpow radix2 (2 - 32))%R) in *.
  pose proof (ra_tab 32 m t ltac:(lia)) as RT. pose proof (tab_scale 32 t ltac:(lia) Ht) as TS.
  change (2 ^ (32 - 16)) with 65536 in *.
  rewrite ushl_ok by lia. cbn [bind]. rewrite ?ushr_ok by lia. cbn [bind]. 
  change (2 ^ (32 - 16)) with 65536. change (32 - 32) with 0. change (2 ^ 0) with 1. rewrite ?Z.div_1_r.
  rewrite (Z.mod_small (t * 65536)) by lia. rewrite ?ucast_ok by lia. cbn [bind]. rewrite ?gold_zero by lia. cbn [bind fst].
  rewrite ushl_ok by lia. cbn [bind]. rewrite ?ushr_ok by lia. cbn [bind].
  change (2 ^ 0) with 1. rewrite ?Z.div_1_r, ?Z.mul_1_r.
  rewrite (Z.mod_small (t * 65536)) by lia. rewrite ?ucast_ok by lia. cbn [bind]. rewrite ?gold_zero by lia. cbn [bind fst].
  rewrite ushl_ok by lia. cbn [bind]. change (2 ^ 0) with 1. rewrite Z.mul_1_r. rewrite (Z.mod_small (t * 65536)) by lia.
  rewrite <- RT in Ea.
  assert (EH : bpow radix2 (2 - 32) = (/ 1073741824)%R) by reflexivity.
  destruct (final3 32 m ltac:(lia) Hm (t * 65536) M (1/256) (1/40000) (254/65536) ltac:(lia) ltac:(lia) Ea ltac:(lra) eq_refl TS ltac:(lra)) as (r & s & Eg & S0 & B);
    try (rewrite EH; unfold quad; lra); try lra.
  rewrite Eg. cbn [bind snd]. exists s. split; [reflexivity|]. split; [exact S0|].
  rewrite EH in B. unfold quad in B. change (bpow radix2 (- (SIG_BITS f32 + 2))) with (/ 33554432)%R.
  apply Rabs_lt. lra.
Qed.
Ltac six v P := 
  match goal with L : 2 ^ ?a <= v < _ |- _ => 
    let k := fresh in assert (k : v = P \/ v = P + 1 \/ v = P + 2 \/ v = P + 3 \/ v = P + 4 \/ v = P + 5) by lia;
    destruct k as [->|[->|[->|[->|[->| ->]]]]]; reflexivity end.
Lemma iter64 ix M : 2 ^ (BITS f64 - 2) <= M < 2 ^ BITS f64 -> 0 <= ix < 2 ^ BITS f64 -> in_slot (idx f64 ix) (IZR M * bpow radix2 (2 - BITS f64)) ->
  iter_ok f64 cfg64 ix M.
Proof.
  start. change (BITS f64) with 64 in *. cbn [set1 set2 cfg64 rounds1 rounds2 rounds3].
  set (m := (IZR M * bpow radix2 (2 - 64))%R) in *.
  pose proof (ra_tab 32 m t ltac:(lia)) as RT. pose proof (tab_scale 32 t ltac:(lia) Ht) as TS.
  change (2 ^ (32 - 16)) with 65536 in *.
  assert (HD : 0 <= M / 2 ^ (64 - 32) < 2 ^ 32) by (split; [apply Z.div_pos; lia|apply Z.div_lt_upper_bound; lia]).
  rewrite ushl_ok by lia. cbn [bind]. rewrite ?ushr_ok by lia. cbn [bind]. 
  change (2 ^ (32 - 16)) with 65536. change (32 - 32) with 0. change (2 ^ 0) with 1.
  rewrite (Z.mod_small (t * 65536)) by lia. rewrite ?ucast_ok by lia. cbn [bind]. rewrite ?gold_zero by lia. cbn [bind fst].
  rewrite ushl_ok by lia. cbn [bind]. 
  change (2 ^ 0) with 1. rewrite Z.mul_1_r.
  rewrite (Z.mod_small (t * 65536)) by lia. rewrite ?ucast_ok by lia. cbn [bind].
  rewrite <- RT in Ea.
  assert (EH : bpow radix2 (2 - 32) = (/ 1073741824)%R) by reflexivity.
  pose proof (lead 64 32 M m ltac:(lia) ltac:(lia) eq_refl) as LD.
  destruct (early2 32 m ltac:(lia) Hm (t * 65536) (M / 2 ^ (64 - 32)) (1/256) (1/40000) (35 / 10000000000) (254/65536) ltac:(lia) ltac:(lia) Ea ltac:(lra) LD TS ltac:(lra)) as (r & s & Eg & R0 & B);
    try (rewrite EH; unfold quad; lra); try lra.
  { intros L. destruct (Ene ltac:(rewrite EH in L; lra)) as [_ ->].
    pose proof (lead_near 64 32 M 6 ltac:(lia) ltac:(lia) ltac:(lia) L) as LN. set (v := M / 2 ^ (64 - 32)) in *. clearbody v. 
    six v (2 ^ 30). }
  rewrite Eg. cbn [bind fst]. rewrite ushl_ok by lia. cbn [bind].
  rewrite (Z.mod_small (r * 2 ^ (64 - 32))) by lia. rewrite <- (ra_shift 32 64) in B by lia.
  destruct (final2 64 m ltac:(lia) Hm (r * 2 ^ (64 - 32)) M (35 / 10000000000) ltac:(lia) ltac:(lia) B ltac:(lra) eq_refl) as (r' & s' & Eg' & S0 & B').
  rewrite Eg'. cbn [bind snd]. exists s'. split; [reflexivity|]. split; [exact S0|].
  change (bpow radix2 (2 - 64)) with (/ 4611686018427387904)%R in B'. unfold quad in B'. change (bpow radix2 (- (SIG_BITS f64 + 2))) with (/ 18014398509481984)%R.
  apply Rabs_lt. lra.
Qed.
Lemma iter128 ix M : 2 ^ (BITS f128 - 2) <= M < 2 ^ BITS f128 -> 0 <= ix < 2 ^ BITS f128 -> in_slot (idx f128 ix) (IZR M * bpow radix2 (2 - BITS f128)) ->
  iter_ok f128 cfg128 ix M.
Proof.
  start. change (BITS f128) with 128 in *. cbn [set1 set2 cfg128 rounds1 rounds2 rounds3].
  set (m := (IZR M * bpow radix2 (2 - 128))%R) in *.
  pose proof (ra_tab 32 m t ltac:(lia)) as RT. pose proof (tab_scale 32 t ltac:(lia) Ht) as TS.
  change (2 ^ (32 - 16)) with 65536 in *.
  assert (HD : 0 <= M / 2 ^ (128 - 32) < 2 ^ 32) by (split; [apply Z.div_pos; lia|apply Z.div_lt_upper_bound; lia]).
  assert (HD' : 0 <= M / 2 ^ (128 - 64) < 2 ^ 64) by (split; [apply Z.div_pos; lia|apply Z.div_lt_upper_bound; lia]).
  rewrite ushl_ok by lia. cbn [bind]. rewrite ushr_ok by lia. cbn [bind]. 
  change (2 ^ (32 - 16)) with 65536. 
  rewrite (Z.mod_small (t * 65536)) by lia. rewrite ucast_ok by lia. cbn [bind]. 
  rewrite <- RT in Ea.
  assert (EH : bpow radix2 (2 - 32) = (/ 1073741824)%R) by reflexivity.
  assert (EH2 : bpow radix2 (2 - 64) = (/ 4611686018427387904)%R) by reflexivity.
  pose proof (lead 128 32 M m ltac:(lia) ltac:(lia) eq_refl) as LD.
  pose proof (lead 128 64 M m ltac:(lia) ltac:(lia) eq_refl) as LD2.
  destruct (early1 32 m ltac:(lia) Hm (t * 65536) (M / 2 ^ (128 - 32)) (1/256) (1/40000) (254/65536) ltac:(lia) ltac:(lia) Ea ltac:(lra) LD TS ltac:(lra)) as (r1 & s1 & Eg1 & R1 & B1 & X1);
    try (rewrite EH; unfold quad; lra); try lra.
  rewrite Eg1. cbn [bind fst]. rewrite ushl_ok by lia. cbn [bind]. rewrite ushr_ok by lia. cbn [bind].
  rewrite (Z.mod_small (r1 * 2 ^ (64 - 32))) by lia. rewrite ucast_ok by lia. cbn [bind].
  rewrite <- (ra_shift 32 64) in B1 by lia.
  assert (X2 : (IZR (r1 * 2 ^ (64 - 32)) * bpow radix2 (- (64)) <= 1 - 15 / 1000000)%R).
  { rewrite mult_IZR, IZR_pow2, Rmult_assoc, bp_split by lia. change (64 - 32 + - (64)) with (- (32)). rewrite EH in X1. lra. }
  destruct (early2 64 m ltac:(lia) Hm (r1 * 2 ^ (64 - 32)) (M / 2 ^ (128 - 64)) (1/40000) (1/1000000000) (21 / 10000000000000000000) (15/1000000) ltac:(lia) ltac:(lia) B1 ltac:(lra) LD2 X2 ltac:(lra)) as (r & s & Eg & R0 & B);
    try (rewrite EH2; unfold quad; lra); try lra.
  { intros L. assert (L' : (m < 1 + 1 * bpow radix2 (2 - 32))%R) by (rewrite EH2 in L; rewrite EH; lra).
    destruct (Ene ltac:(rewrite EH in L'; lra)) as [_ ->].
    pose proof (lead_near 128 64 M 6 ltac:(lia) ltac:(lia) ltac:(lia) L) as LN. 
    pose proof (lead_near 128 32 M 1 ltac:(lia) ltac:(lia) ltac:(lia) L') as LN1.
    replace (M / 2 ^ (128 - 32)) with (2 ^ 30) in Eg1 by (change (2 ^ (32 - 2)) with (2 ^ 30) in LN1; lia).
    vm_compute in Eg1. apply (f_equal (fun o => match o with Some (a, _) => a | None => 0 end)) in Eg1. cbv beta iota in Eg1. rewrite <- Eg1.
    set (v := M / 2 ^ (128 - 64)) in *. clearbody v. six v (2 ^ 62). }
  rewrite Eg. cbn [bind fst]. rewrite ushl_ok by lia. cbn [bind].
  rewrite (Z.mod_small (r * 2 ^ (128 - 64))) by lia. rewrite <- (ra_shift 64 128) in B by lia.
  destruct (final2 128 m ltac:(lia) Hm (r * 2 ^ (128 - 64)) M (21 / 10000000000000000000) ltac:(lia) ltac:(lia) B ltac:(lra) eq_refl) as (r' & s' & Eg' & S0 & B').
  rewrite Eg'. cbn [bind snd]. exists s'. split; [reflexivity|]. split; [exact S0|].
  change (bpow radix2 (2 - 128)) with (/ 85070591730234615865843651857942052864)%R in B'. unfold quad in B'. change (bpow radix2 (- (SIG_BITS f128 + 2))) with (/ 20769187434139310514121985316880384)%R.
  apply Rabs_lt. lra.
Qed.
