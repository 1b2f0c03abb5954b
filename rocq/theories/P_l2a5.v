(** log2, f64: the two branches. *)
From Coq Require Import ZArith Reals Lia Lra Bool List Psatz.
From Flocq Require Import Core.
From Verif Require Import Base Spec SpecFun2 SpecLog Format P_format Ieee P_ieee P_real P_neg P_lit P_err P_scalbn P_apx P_poly P_poly2 P_poly3 P_powt P_powt8 P_taylor P_expa1 P_expa2 P_expa3 P_expa4 P_expa5 P_expa7 P_expa8 P_expa9 P_lga1 P_lga2 P_lga3 P_lga4 P_lga5 P_l2a1 P_l2a2 P_l2a3 P_l2a4 M_log.
Import ListNotations.
Open Scope R_scope.
Local Opaque fadd fsub fmul fdiv of_int.

Lemma AP_s1 F s e R l h er l' h' er' : AP F s e R (l, h, er) -> fxr l' <= s * R <= fxr h' -> s * fxr er <= fxr er' -> AP F 1 e (s * R) (l', h', er').
Proof. intros (H1 & H2 & H3) H K. split; [exact H1|]. split; [exact H|]. rewrite !Rmult_1_l. lra. Qed.
(** the product by a constant with few bits is exact *)
Lemma hi_mul f c n e : isbits f64 f -> finite f64 f = true -> bpow radix2 (-60) <= Rabs (val f64 f) -> -2930 / 10000 <= val f64 f <= 41425 / 100000 -> finite f64 c = true -> val f64 c = IZR n * bpow radix2 e -> (Z.abs n < 2 ^ 32)%Z -> (-50 <= e <= 0)%Z -> Rabs (val f64 c) <= 4 ->
  isbits f64 (fmul f64 (hi64 f) c) /\ finite f64 (fmul f64 (hi64 f) c) = true /\ val f64 (fmul f64 (hi64 f) c) = val f64 (hi64 f) * val f64 c.
Proof.
  intros Bf Ff Lo Hf Fc Vc N E C. destruct (ker2 f Bf Ff Lo Hf) as (_ & _ & _ & (B0 & F0) & L0 & _). 
  apply (trc_mul f64 32 (fsub f64 f (lh64 f)) c n e B0 F0); try assumption; vm_compute; try discriminate; try reflexivity. split; discriminate.
Qed.
(** every reduced argument, zero included, with absolute errors *)
Lemma ker2_1 f : isbits f64 f -> finite f64 f = true -> (val f64 f <> 0 -> bpow radix2 (-60) <= Rabs (val f64 f)) -> -2930 / 10000 <= val f64 f <= 41425 / 100000 ->
  let F := val f64 f in let H := val f64 (hi64 f) in 
  AP f64 1 (hi64 f) H (- (9 * 2 ^ 196), 9 * 2 ^ 196, 0)%Z /\ AP f64 1 (lo64 f) (lG cl64 F - H) (- (5 * 2 ^ 192), 5 * 2 ^ 192, 131 * 2 ^ 138)%Z /\ Rabs (H - (F - F * F / 2)) <= / 500000 /\
  forall c n e, finite f64 c = true -> val f64 c = IZR n * bpow radix2 e -> (Z.abs n < 2 ^ 32)%Z -> (-50 <= e <= 0)%Z -> Rabs (val f64 c) <= 4 -> isbits f64 (fmul f64 (hi64 f) c) /\ finite f64 (fmul f64 (hi64 f) c) = true /\ val f64 (fmul f64 (hi64 f) c) = H * val f64 c.
Proof.
  intros Bf Ff Lo Hf F H. destruct (Req_dec F 0) as [Z | NZ].
  - assert (HZ : val f64 (hi64 f) = 0 /\ val f64 (lo64 f) = 0 /\ (isbits f64 (hi64 f) /\ finite f64 (hi64 f) = true) /\ isbits f64 (lo64 f) /\ finite f64 (lo64 f) = true).
    { pose proof (val_eq_0 f64 f Bf Ff Z) as I. assert (f = 0 \/ f = 0x8000000000000000)%Z as [-> | ->].
      { unfold iszero in I. apply andb_prop in I as [I1 I2]. apply Z.eqb_eq in I1, I2. unfold expf, sigf in I1, I2. destruct Bf as [Bf1 Bf2]. change (mw f64) with 52%Z in *. change (ew f64) with 11%Z in *. change (2 ^ 52)%Z with 4503599627370496%Z in *. change (2 ^ 11)%Z with 2048%Z in *.
        assert (QB : (f < 18446744073709551616)%Z) by exact Bf2. pose proof (Z.div_mod f 4503599627370496 ltac:(lia)). pose proof (Z.div_mod (f / 4503599627370496) 2048 ltac:(lia)). assert (0 <= f / 4503599627370496 / 2048 < 2)%Z by (rewrite Z.div_div by lia; split; [apply Z.div_pos; lia|apply Z.div_lt_upper_bound; lia]). lia. }
      - assert (EH : hi64 0 = 0%Z) by (vm_compute; reflexivity). assert (EL : lo64 0 = 0%Z) by (vm_compute; reflexivity). rewrite EH, EL. rewrite (val_zero f64 false : val f64 0 = 0). repeat split; vm_compute; (reflexivity || discriminate).
      - assert (EH : hi64 0x8000000000000000 = 0x8000000000000000%Z) by (vm_compute; reflexivity). assert (EL : lo64 0x8000000000000000 = 0%Z) by (vm_compute; reflexivity). rewrite EH, EL. rewrite (val_zero f64 false : val f64 0 = 0), (val_zero f64 true : val f64 0x8000000000000000 = 0). repeat split; vm_compute; (reflexivity || discriminate). }
    destruct HZ as (V1 & V2 & (B1 & F1) & B2 & F2). change (val f64 (hi64 f)) with H in V1. 
    assert (G0 : lG cl64 F = 0) by (rewrite lG_eq by lra; rewrite Z; unfold Rdiv; rewrite !Rmult_0_l; reflexivity). rewrite G0, V1, Z.
    assert (P : forall a, (0 <= a)%Z -> 0 <= fxr a) by (intros a A; rewrite <- fxr_0; now apply fxr_le).
    split; [|split; [|split]].
    + split; [now split|]. rewrite fxr_opp. pose proof (P (9 * 2 ^ 196)%Z ltac:(lia)). split; [lra|]. change (val f64 (hi64 f)) with H. rewrite V1, Rmult_0_r, Rminus_0_r, Rabs_R0, fxr_0. lra.
    + split; [now split|]. rewrite fxr_opp. pose proof (P (5 * 2 ^ 192)%Z ltac:(lia)). pose proof (P (131 * 2 ^ 138)%Z ltac:(lia)). split; [lra|]. rewrite V2. replace (0 - 1 * (0 - 0)) with 0 by ring. rewrite Rabs_R0. lra.
    + replace (0 - (0 - 0 * 0 / 2)) with 0 by field. rewrite Rabs_R0. lra.
    + intros c n e Fc Vc _ _ C. pose proof (fmul_spec f64 (hi64 f) c F1 Fc) as RT. change (val f64 (hi64 f)) with H in RT. rewrite V1, Rmult_0_l in RT. destruct (rounds_fin f64 _ _ _ RT) as [Fm Vm]. { rewrite Rabs_R0. apply bpow_ge_0. }
      rewrite (repr_rnd f64 0 (repr_0 f64)) in Vm. split; [exact (proj1 RT)|]. split; [exact Fm|]. rewrite Vm. ring.
  - specialize (Lo NZ). destruct (ker2 f Bf Ff Lo Hf) as (HS & AH & AL & _ & _ & HT). fold F H in AH, AL, HT. set (s := Rabs F) in *. assert (S0 : 0 < s) by apply HS. assert (S1 : s <= 41425 / 100000) by (apply Rabs_le; fold F in Hf; lra).
    split; [|split; [|split; [exact HT|]]].
    + replace H with (s * (H / s)) at 1 by (field; lra). destruct AH as (A1 & A2 & A3). apply (AP_s1 f64 s _ _ (- (5 * 2 ^ 198)) (5 * 2 ^ 198) 0); [split; [exact A1|split; assumption]| |rewrite fxr_0; lra].
      rewrite !fxr_opp, !fxr_mulZ in *. change (2 ^ 198)%Z with (2 ^ (200 - 2))%Z in A2. change (2 ^ 196)%Z with (2 ^ (200 - 4))%Z. rewrite !fxr2 in * by lia. change (2 ^ 2)%Z with 4%Z in A2. change (2 ^ 4)%Z with 16%Z. nra.
    + replace (lG cl64 F - H) with (s * ((lG cl64 F - H) / s)) by (field; lra). destruct AL as (A1 & A2 & A3). apply (AP_s1 f64 s _ _ (- (3 * 2 ^ 194)) (3 * 2 ^ 194) (39 * 2 ^ 141)); [split; [exact A1|split; assumption]| |].
      * rewrite !fxr_opp, !fxr_mulZ in *. change (2 ^ 194)%Z with (2 ^ (200 - 6))%Z in A2. change (2 ^ 192)%Z with (2 ^ (200 - 8))%Z. rewrite !fxr2 in * by lia. change (2 ^ 6)%Z with 64%Z in A2. change (2 ^ 8)%Z with 256%Z. nra.
      * change (39 * 2 ^ 141)%Z with (312 * 2 ^ 138)%Z. rewrite !fxr_mulZ. pose proof (P_apx.fxr_le 0 (2 ^ 138) ltac:(lia)) as Q. rewrite fxr_0 in Q. nra.
    + intros c n e Fc Vc N E C. exact (hi_mul f c n e Bf Ff Lo Hf Fc Vc N E C).
Qed.
