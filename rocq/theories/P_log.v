(** The logarithms and inverse hyperbolic functions never panic. *)
From Coq Require Import ZArith Reals Lia Lra Bool List.
From Flocq Require Import Core.
From Verif Require Import Base Spec SpecElem Format P_format Ieee P_ieee P_real P_key P_neg M_sqrt M_elib M_log P_elem P_elem2 P_ival P_ival2 P_tot P_exp.
Open Scope Z_scope.

Lemma bs_pos b : (0 <? bs b) = b. Proof. now destruct b. Qed.
Lemma land_range a n m : m = 2 ^ n - 1 -> 0 <= n -> 0 <= Z.land a m < 2 ^ n.
Proof. intros -> H. now apply land_low. Qed.
Lemma shr_range a n m : 0 <= n -> 0 <= a < 2 ^ m -> n <= m -> 0 <= Z.shiftr a n < 2 ^ (m - n).
Proof.
  intros Hn Ha Hm. rewrite Z.shiftr_div_pow2 by assumption. pose proof (Z.pow_pos_nonneg 2 n). split; [apply Z.div_pos; lia|].
  apply Z.div_lt_upper_bound; [lia|]. rewrite <- Z.pow_add_r by lia. replace (n + (m - n)) with m by lia. lia.
Qed.
Ltac logops32 ix := 
  rewrite uadd_ok by lia; absw;
  match goal with |- context[Z.shiftr ?a 23] => pose proof (shr_range a 23 32 ltac:(lia) ltac:(lia) ltac:(lia)) end;
  rewrite to_i32_small by lia; rewrite ssub_ok by lia; absw.
Lemma logf_1_tot ix k : 0 <= ix < 2 ^ 31 -> -100 <= k <= 100 -> exists r, rs_logf_1 ix k = Some r /\ isbits f32 r.
Proof.
  intros Hx Hk. cbv beta delta [rs_logf_1]. logops32 ix. rewrite sadd_ok by lia. absw.
  pose proof (land_range (ix + 0x4afb0d) 23 0x7fffff eq_refl ltac:(lia)). rewrite uadd_ok by lia. absw.
Qed.
Lemma log2f_1_tot ix k : 0 <= ix < 2 ^ 31 -> -100 <= k <= 100 -> exists r, rs_log2f_1 ix k = Some r /\ isbits f32 r.
Proof.
  intros Hx Hk. cbv beta delta [rs_log2f_1]. logops32 ix. rewrite sadd_ok by lia. absw.
  pose proof (land_range (ix + 0x4afb0d) 23 0x7fffff eq_refl ltac:(lia)). rewrite uadd_ok by lia. absw.
Qed.
Lemma log10f_1_tot ix k : 0 <= ix < 2 ^ 31 -> -100 <= k <= 100 -> exists r, rs_log10f_1 ix k = Some r /\ isbits f32 r.
Proof.
  intros Hx Hk. cbv beta delta [rs_log10f_1]. logops32 ix. rewrite sadd_ok by lia. absw.
  pose proof (land_range (ix + 0x4afb0d) 23 0x7fffff eq_refl ltac:(lia)). rewrite uadd_ok by lia. absw.
Qed.
(** a subnormal times a power of two *)
Lemma sub32 x : isbits f32 x -> signbit f32 x = false -> 1 <= x <= 0x7fffff -> 0 <= (x *' 0x4c000000)%fl < 2 ^ 31.
Proof.
  intros B S H. assert (I : IN f32 (1, 0x7fffff) x) by (apply IN_pos32; try assumption; rewrite ?pos32_eq by assumption; lia).
  ivl f32 (x *' 0x4c000000)%fl K. apply IN_bitsb in K; [|vm_compute; reflexivity]. lia.
Qed.
Lemma sub64 x : isbits f64 x -> signbit f64 x = false -> 1 <= x <= 0xfffffffffffff -> 0 <= (x *: 0x4350000000000000)%fl < 2 ^ 63.
Proof.
  intros B S H. assert (I : IN f64 (1, 0xfffffffffffff) x) by (apply IN_pos64; try assumption; rewrite ?pos64_eq by assumption; lia).
  ivl f64 (x *: 0x4350000000000000)%fl K. apply IN_bitsb in K; [|vm_compute; reflexivity]. lia.
Qed.
Lemma shl1_32 x : isbits f32 x -> shlu 32 x 1 = 2 * a32 x.
Proof.
  intros B. destruct (bits32 x B) as [E R]. unfold shlu. rewrite Z.shiftl_mul_pow2 by lia. 
  rewrite E at 1. replace ((bs (signbit f32 x) * 2 ^ 31 + a32 x) * 2 ^ 1) with (2 * a32 x + bs (signbit f32 x) * 2 ^ 32) by lia.
  rewrite Z.mod_add by lia. apply Z.mod_small. lia.
Qed.
Lemma shl1_64 x : isbits f64 x -> shlu 64 x 1 = 2 * a64 x.
Proof.
  intros B. destruct (bits64 x B) as [E R]. unfold shlu. rewrite Z.shiftl_mul_pow2 by lia. 
  rewrite E at 1. replace ((bs (signbit f64 x) * 2 ^ 63 + a64 x) * 2 ^ 1) with (2 * a64 x + bs (signbit f64 x) * 2 ^ 64) by lia.
  rewrite Z.mod_add by lia. apply Z.mod_small. lia.
Qed.
Ltac bprop := rewrite ?orb_true_iff, ?orb_false_iff, ?andb_true_iff, ?andb_false_iff, ?negb_true_iff, ?negb_false_iff, ?Z.leb_gt, ?Z.leb_le, ?Z.ltb_lt, ?Z.ltb_ge, ?Z.eqb_eq, ?Z.eqb_neq in *.
Ltac logf_tac lem x B :=
  words32 x B; rewrite ?bs_pos, ?negb_involutive, ?(shl1_32 x B); destruct (bits32 x B) as [E R];
  walk; destruct (signbit f32 x) eqn:S; unfold bs in E; bprop;
  [ idtac | rewrite ssub_ok by lia; walk; apply lem; [apply sub32; try assumption; lia|lia] | idtac | apply lem; lia]; try lia; intuition (try discriminate; try lia).
Lemma logf_tot : total1 f32 f32 rs_logf.
Proof. intros x B. unfold rs_logf. logf_tac logf_1_tot x B. Qed.
Lemma log2f_tot : total1 f32 f32 rs_log2f.
Proof. intros x B. unfold rs_log2f. logf_tac log2f_1_tot x B. Qed.
Lemma log10f_tot : total1 f32 f32 rs_log10f.
Proof. intros x B. unfold rs_log10f. logf_tac log10f_1_tot x B. Qed.

Lemma log1pf_1_tot x f c k : IN f32 (0xbf7fffff, 0x7f7fffff) x -> -100 <= k <= 100 -> exists r, rs_log1pf_1 x f c k = Some r /\ isbits f32 r.
Proof.
  intros I Hk. cbv beta delta [rs_log1pf_1].
  assert (G : exists k' c' f', (if 0 <? k then
       let ui := (0x3f800000 +' x)%fl in
       let iu := ui in
       let* iu := uadd 32 iu 0x4afb0d in
       let* k := ssub 32 (to_i 32 (Z.shiftr iu 23)) 127 in
       let c := (if k <? 25 then let c := (if 2 <=? k then (0x3f800000 -' (ui -' x))%fl else (x -' (ui -' 0x3f800000))%fl) in
            let c := (c /' ui)%fl in c else let c := 0 in c) in
       let* iu := uadd 32 (Z.land iu 0x7fffff) 0x3f3504f3 in
       let ui := iu in
       let f := (ui -' 0x3f800000)%fl in
       Some (k, c, f)
     else Some (k, c, f)) = Some (k', c', f')).
  { destruct (0 <? k); [|now do 3 eexists]. cbv zeta.
    ivl f32 (0x3f800000 +' x)%fl K. apply IN_bitsb in K; [|vm_compute; reflexivity].
    set (ui := (0x3f800000 +' x)%fl) in *. clearbody ui. rewrite uadd_ok by lia. cbn [bind].
    pose proof (shr_range (ui + 0x4afb0d) 23 32 ltac:(lia) ltac:(lia) ltac:(lia)).
    rewrite to_i32_small by lia. rewrite ssub_ok by lia. cbn [bind].
    pose proof (land_range (ui + 0x4afb0d) 23 0x7fffff eq_refl ltac:(lia)). rewrite uadd_ok by lia. cbn [bind].
    do 3 eexists. reflexivity. }
  destruct G as (k' & c' & f' & ->). cbn [bind]. absw.
Qed.
Lemma log1pf_tot : total1 f32 f32 rs_log1pf.
Proof.
  intros x B. unfold rs_log1pf. words32 x B. rewrite ?bs_pos, ?(shl1_32 x B). destruct (bits32 x B) as [E R].
  walk; destruct (signbit f32 x) eqn:S; unfold bs in E; bprop; (apply log1pf_1_tot; [|lia]); try (exfalso; intuition (try discriminate; lia)).
  - assert (J : IN f32 (fneg f32 0x3f7fffff, fneg f32 0) x) by (apply IN_neg32; try assumption; lia). inw J.
  - assert (J : IN f32 (0, 0x7f7fffff) x) by (apply IN_pos32; try assumption; lia). inw J.
  - assert (J : IN f32 (fneg f32 0x3f7fffff, fneg f32 0) x) by (apply IN_neg32; try assumption; lia). inw J.
  - assert (J : IN f32 (0, 0x7f7fffff) x) by (apply IN_pos32; try assumption; lia). inw J.
Qed.

(** ** f64 *)
Ltac logops64 := 
  rewrite uadd_ok by lia; absw;
  match goal with |- context[Z.shiftr ?a 20] => pose proof (shr_range a 20 32 ltac:(lia) ltac:(lia) ltac:(lia)) end;
  rewrite to_i32_small by lia; rewrite ssub_ok by lia; absw; rewrite sadd_ok by lia; absw;
  match goal with |- context[Z.land ?a 0xfffff] => pose proof (land_range a 20 0xfffff eq_refl ltac:(lia)) end; rewrite uadd_ok by lia; absw.
Lemma log_1_tot ui hx k : 0 <= hx < 2 ^ 31 -> -100 <= k <= 100 -> exists r, rs_log_1 ui hx k = Some r /\ isbits f64 r.
Proof. intros Hx Hk. cbv beta delta [rs_log_1]. logops64. Qed.
Lemma log2_1_tot ui hx k : 0 <= hx < 2 ^ 31 -> -100 <= k <= 100 -> exists r, rs_log2_1 ui hx k = Some r /\ isbits f64 r.
Proof. intros Hx Hk. cbv beta delta [rs_log2_1]. logops64. Qed.
Lemma log10_1_tot ui hx k : 0 <= hx < 2 ^ 31 -> -100 <= k <= 100 -> exists r, rs_log10_1 ui hx k = Some r /\ isbits f64 r.
Proof. intros Hx Hk. cbv beta delta [rs_log10_1]. logops64. Qed.
Lemma hw_pos a : 0 <= a < 2 ^ 63 -> 0 <= to_u 32 (Z.shiftr a 32) < 2 ^ 31.
Proof.
  intros H. pose proof (shr_range a 32 63 ltac:(lia) H ltac:(lia)). unfold to_u. change (63 - 32) with 31 in *. rewrite Z.mod_small by lia. lia.
Qed.
Ltac log_tac lem x B :=
  words64 x B; rewrite ?bs_pos, ?negb_involutive, ?(shl1_64 x B); destruct (bits64 x B) as [E R]; pose proof (hi_lo64 x B) as HL;
  pose proof (a64_hi x B) as RH;
  walk; destruct (signbit f64 x) eqn:S; unfold bs in *; bprop;
  [ idtac | rewrite ssub_ok by lia; walk; apply lem; [apply hw_pos; apply sub64; try assumption; lia|lia] | idtac | apply lem; lia]; try lia; intuition (try discriminate; try lia).
Lemma log_tot : total1 f64 f64 rs_log.
Proof. intros x B. unfold rs_log. log_tac log_1_tot x B. Qed.
Lemma log2_tot : total1 f64 f64 rs_log2.
Proof. intros x B. unfold rs_log2. log_tac log2_1_tot x B. Qed.
Lemma log10_tot : total1 f64 f64 rs_log10.
Proof. intros x B. unfold rs_log10. log_tac log10_1_tot x B. Qed.
Lemma log1p_1_tot x f c k : IN f64 (0xbfefffffffffffff, 0x7fefffffffffffff) x -> -100 <= k <= 100 -> exists r, rs_log1p_1 x f c k = Some r /\ isbits f64 r.
Proof.
  intros I Hk. cbv beta delta [rs_log1p_1].
  match goal with |- context[bind ?m _] => assert (G : exists k' c' f', m = Some (k', c', f')) end.
  { destruct (0 <? k); [|now do 3 eexists]. cbv zeta.
    ivl f64 (0x3ff0000000000000 +: x)%fl K. apply IN_bitsb in K; [|vm_compute; reflexivity].
    set (ui := (0x3ff0000000000000 +: x)%fl) in *. clearbody ui.
    pose proof (hw_pos ui ltac:(lia)). set (hx := to_u 32 (Z.shiftr ui 32)) in *. clearbody hx.
    rewrite uadd_ok by lia. cbn [bind].
    pose proof (shr_range (hx + 0x95f62) 20 32 ltac:(lia) ltac:(lia) ltac:(lia)).
    rewrite to_i32_small by lia. rewrite ssub_ok by lia. cbn [bind].
    pose proof (land_range (hx + 0x95f62) 20 0xfffff eq_refl ltac:(lia)). rewrite uadd_ok by lia. cbn [bind].
    do 3 eexists. reflexivity. }
  destruct G as (k' & c' & f' & ->). cbn [bind]. absw.
Qed.
Lemma log1p_tot : total1 f64 f64 rs_log1p.
Proof.
  intros x B. unfold rs_log1p. words64 x B. rewrite ?bs_pos. destruct (bits64 x B) as [E R]. pose proof (hi_lo64 x B) as HL.
  walk; destruct (signbit f64 x) eqn:S; unfold bs in *; bprop; (apply log1p_1_tot; [|lia]); try (exfalso; intuition (try discriminate; lia)).
  - assert (J : IN f64 (fneg f64 0x3fefffffffffffff, fneg f64 0) x) by (apply IN_neg64; try assumption; lia). inw J.
  - assert (J : IN f64 (0, 0x7fefffffffffffff) x) by (apply IN_pos64; try assumption; lia). inw J.
  - assert (J : IN f64 (fneg f64 0x3fefffffffffffff, fneg f64 0) x) by (apply IN_neg64; try assumption; lia). inw J.
  - assert (J : IN f64 (0, 0x7fefffffffffffff) x) by (apply IN_pos64; try assumption; lia). inw J.
Qed.

(** ** inverse hyperbolic functions *)
Ltac calls := repeat (walk; try call logf_tot; try call log1pf_tot; try call sqrtf_total; try call log_tot; try call log1p_tot; try call sqrt_total).
Lemma asinhf_tot : total1 f32 f32 rs_asinhf.
Proof. intros x B. unfold rs_asinhf. words32 x B. pose proof (a32_bits x B). calls. Qed.
Lemma acoshf_tot : total1 f32 f32 rs_acoshf.
Proof. intros x B. unfold rs_acoshf. calls; try tailcall log1pf_tot; tailcall logf_tot. Qed.
Lemma atanhf_tot : total1 f32 f32 rs_atanhf.
Proof. intros x B. unfold rs_atanhf. words32 x B. pose proof (a32_bits x B). calls. Qed.
Lemma a64_sh x : Z.land x (Z.shiftr (unot 64 0) 1) = a64 x.
Proof. change (Z.shiftr (unot 64 0) 1) with 0x7fffffffffffffff. apply land_a64. Qed.
Lemma asinh_tot : total1 f64 f64 rs_asinh.
Proof. intros x B. unfold rs_asinh. words64 x B. rewrite ?a64_sh. pose proof (a64_bits x B). calls. Qed.
Lemma acosh_tot : total1 f64 f64 rs_acosh.
Proof. intros x B. unfold rs_acosh. calls; try tailcall log1p_tot; tailcall log_tot. Qed.
Lemma atanh_tot : total1 f64 f64 rs_atanh.
Proof. intros x B. unfold rs_atanh. words64 x B. pose proof (a64_bits x B). calls. Qed.
