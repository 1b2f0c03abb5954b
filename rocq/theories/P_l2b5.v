(** log2, f32: the two branches. *)
From Coq Require Import ZArith Reals Lia Lra Bool List Psatz.
From Flocq Require Import Core.
From Verif Require Import Base Spec SpecFun2 SpecLog Format P_format Ieee P_ieee P_real P_neg P_lit P_err P_scalbn P_apx P_poly P_poly2 P_poly3 P_powt P_powt8 P_taylor P_expa1 P_expa2 P_expa3 P_expa4 P_expa5 P_expa7 P_expa8 P_expa9 P_lga1 P_lga2 P_lga3 P_lga5 P_lgb3 P_lgb4 P_lgb5 P_l2a1 P_l2a2 P_l2a3 P_l2a4 P_l2a5 P_l2b2 P_l2b3 M_log.
Import ListNotations.
Open Scope R_scope.
Local Opaque fadd fsub fmul fdiv of_int.

(** the product by a constant with few bits is exact *)
Lemma hi_mulf f c n e : isbits f32 f -> finite f32 f = true -> bpow radix2 (-60) <= Rabs (val f32 f) -> -2930 / 10000 <= val f32 f <= 41425 / 100000 -> finite f32 c = true -> val f32 c = IZR n * bpow radix2 e -> (Z.abs n < 2 ^ 12)%Z -> (-50 <= e <= 0)%Z -> Rabs (val f32 c) <= 4 ->
  isbits f32 (fmul f32 (hi32 f) c) /\ finite f32 (fmul f32 (hi32 f) c) = true /\ val f32 (fmul f32 (hi32 f) c) = val f32 (hi32 f) * val f32 c.
Proof.
  intros Bf Ff Lo Hf Fc Vc N E C. destruct (ker2f f Bf Ff Lo Hf) as (_ & _ & _ & (B0 & F0) & L0 & _). 
  apply (trc_mul f32 12 (fsub f32 f (lh32 f)) c n e B0 F0); try assumption; vm_compute; try discriminate; try reflexivity. split; discriminate.
Qed.
(** every reduced argument, zero included, with absolute errors *)
Lemma ker2_1f f : isbits f32 f -> finite f32 f = true -> (val f32 f <> 0 -> bpow radix2 (-60) <= Rabs (val f32 f)) -> -2930 / 10000 <= val f32 f <= 41425 / 100000 ->
  let F := val f32 f in let H := val f32 (hi32 f) in 
  AP f32 1 (hi32 f) H (- (9 * 2 ^ 196), 9 * 2 ^ 196, 0)%Z /\ AP f32 1 (lo32 f) (lG cl32 F - H) (- (21 * 2 ^ 190), 21 * 2 ^ 190, 131 * 2 ^ 167)%Z /\ Rabs (H - (F - F * F / 2)) <= / 1600 /\
  forall c n e, finite f32 c = true -> val f32 c = IZR n * bpow radix2 e -> (Z.abs n < 2 ^ 12)%Z -> (-50 <= e <= 0)%Z -> Rabs (val f32 c) <= 4 -> isbits f32 (fmul f32 (hi32 f) c) /\ finite f32 (fmul f32 (hi32 f) c) = true /\ val f32 (fmul f32 (hi32 f) c) = H * val f32 c.
Proof.
  intros Bf Ff Lo Hf F H. destruct (Req_dec F 0) as [Z | NZ].
  - assert (HZ : val f32 (hi32 f) = 0 /\ val f32 (lo32 f) = 0 /\ (isbits f32 (hi32 f) /\ finite f32 (hi32 f) = true) /\ isbits f32 (lo32 f) /\ finite f32 (lo32 f) = true).
    { pose proof (val_eq_0 f32 f Bf Ff Z) as I. assert (f = 0 \/ f = 0x80000000)%Z as [-> | ->].
      { unfold iszero in I. apply andb_prop in I as [I1 I2]. apply Z.eqb_eq in I1, I2. unfold expf, sigf in I1, I2. destruct Bf as [Bf1 Bf2]. change (mw f32) with 23%Z in *. change (ew f32) with 8%Z in *. change (2 ^ 23)%Z with 8388608%Z in *. change (2 ^ 8)%Z with 256%Z in *.
        assert (QB : (f < 4294967296)%Z) by exact Bf2. pose proof (Z.div_mod f 8388608 ltac:(lia)). pose proof (Z.div_mod (f / 8388608) 256 ltac:(lia)). assert (0 <= f / 8388608 / 256 < 2)%Z by (rewrite Z.div_div by lia; split; [apply Z.div_pos; lia|apply Z.div_lt_upper_bound; lia]). lia. }
      - assert (EH : hi32 0 = 0%Z) by (vm_compute; reflexivity). assert (EL : lo32 0 = 0%Z) by (vm_compute; reflexivity). rewrite EH, EL. rewrite (val_zero f32 false : val f32 0 = 0). repeat split; vm_compute; (reflexivity || discriminate).
      - assert (EH : hi32 0x80000000 = 0x80000000%Z) by (vm_compute; reflexivity). assert (EL : lo32 0x80000000 = 0%Z) by (vm_compute; reflexivity). rewrite EH, EL. rewrite (val_zero f32 false : val f32 0 = 0), (val_zero f32 true : val f32 0x80000000 = 0). repeat split; vm_compute; (reflexivity || discriminate). }
    destruct HZ as (V1 & V2 & (B1 & F1) & B2 & F2). change (val f32 (hi32 f)) with H in V1. 
    assert (G0 : lG cl32 F = 0) by (rewrite lG_eq by lra; rewrite Z; unfold Rdiv; rewrite !Rmult_0_l; reflexivity). rewrite G0, V1, Z.
    assert (P : forall a, (0 <= a)%Z -> 0 <= fxr a) by (intros a A; rewrite <- fxr_0; now apply fxr_le).
    split; [|split; [|split]].
    + split; [now split|]. rewrite fxr_opp. pose proof (P (9 * 2 ^ 196)%Z ltac:(lia)). split; [lra|]. change (val f32 (hi32 f)) with H. rewrite V1, Rmult_0_r, Rminus_0_r, Rabs_R0, fxr_0. lra.
    + split; [now split|]. rewrite fxr_opp. pose proof (P (21 * 2 ^ 190)%Z ltac:(lia)). pose proof (P (131 * 2 ^ 167)%Z ltac:(lia)). split; [lra|]. rewrite V2. replace (0 - 1 * (0 - 0)) with 0 by ring. rewrite Rabs_R0. lra.
    + replace (0 - (0 - 0 * 0 / 2)) with 0 by field. rewrite Rabs_R0. lra.
    + intros c n e Fc Vc _ _ C. pose proof (fmul_spec f32 (hi32 f) c F1 Fc) as RT. change (val f32 (hi32 f)) with H in RT. rewrite V1, Rmult_0_l in RT. destruct (rounds_fin f32 _ _ _ RT) as [Fm Vm]. { rewrite Rabs_R0. apply bpow_ge_0. }
      rewrite (repr_rnd f32 0 (repr_0 f32)) in Vm. split; [exact (proj1 RT)|]. split; [exact Fm|]. rewrite Vm. ring.
  - specialize (Lo NZ). destruct (ker2f f Bf Ff Lo Hf) as (HS & AH & AL & _ & _ & HT). fold F H in AH, AL, HT. set (s := Rabs F) in *. assert (S0 : 0 < s) by apply HS. assert (S1 : s <= 41425 / 100000) by (apply Rabs_le; fold F in Hf; lra).
    split; [|split; [|split; [exact HT|]]].
    + replace H with (s * (H / s)) at 1 by (field; lra). destruct AH as (A1 & A2 & A3). apply (AP_s1 f32 s _ _ (- (5 * 2 ^ 198)) (5 * 2 ^ 198) 0); [split; [exact A1|split; assumption]| |rewrite fxr_0; lra].
      rewrite !fxr_opp, !fxr_mulZ in *. change (2 ^ 198)%Z with (2 ^ (200 - 2))%Z in A2. change (2 ^ 196)%Z with (2 ^ (200 - 4))%Z. rewrite !fxr2 in * by lia. change (2 ^ 2)%Z with 4%Z in A2. change (2 ^ 4)%Z with 16%Z. nra.
    + replace (lG cl32 F - H) with (s * ((lG cl32 F - H) / s)) by (field; lra). destruct AL as (A1 & A2 & A3). apply (AP_s1 f32 s _ _ (- (25 * 2 ^ 191)) (25 * 2 ^ 191) (39 * 2 ^ 170)); [split; [exact A1|split; assumption]| |].
      * rewrite !fxr_opp, !fxr_mulZ in *. change (2 ^ 191)%Z with (2 ^ (200 - 9))%Z in A2. change (2 ^ 190)%Z with (2 ^ (200 - 10))%Z. rewrite !fxr2 in * by lia. change (2 ^ 9)%Z with 512%Z in A2. change (2 ^ 10)%Z with 1024%Z. nra.
      * change (39 * 2 ^ 170)%Z with (312 * 2 ^ 167)%Z. rewrite !fxr_mulZ. pose proof (P_apx.fxr_le 0 (2 ^ 167) ltac:(lia)) as Q. rewrite fxr_0 in Q. nra.
    + intros c n e Fc Vc N E C. exact (hi_mulf f c n e Bf Ff Lo Hf Fc Vc N E C).
Qed.
