(** The common kernel of log2 and log10, f32: hi + lo = ln (1 + f). *)
From Coq Require Import ZArith Reals Lia Lra Bool List Psatz.
From Flocq Require Import Core.
From Verif Require Import Base Spec SpecFun2 Format P_format Ieee P_ieee P_real P_neg P_lit P_err P_scalbn P_apx P_poly P_poly2 P_poly3 P_powt P_powt8 P_taylor P_expa1 P_expa2 P_expa3 P_expa4 P_expa5 P_expa7 P_expa8 P_expa9 P_lga1 P_lga2 P_lga3 P_lga5 P_lgb3 P_lgb4 P_lgb5 P_l2a1 P_l2a2 P_l2b2 M_log.
Import ListNotations.
Open Scope R_scope.
Local Opaque fadd fsub fmul fdiv of_int.

Lemma ker2f f : isbits f32 f -> finite f32 f = true -> bpow radix2 (-60) <= Rabs (val f32 f) -> -2930 / 10000 <= val f32 f <= 41425 / 100000 ->
  let F := val f32 f in let s := Rabs F in let H := val f32 (hi32 f) in scal f32 s (2 ^ 110) /\
  AP f32 s (hi32 f) (H / s) (- (5 * 2 ^ 198), 5 * 2 ^ 198, 0)%Z /\ AP f32 s (lo32 f) ((lG cl32 F - H) / s) (- (25 * 2 ^ 191), 25 * 2 ^ 191, 39 * 2 ^ 170)%Z /\
  (isbits f32 (fsub f32 f (lh32 f)) /\ finite f32 (fsub f32 f (lh32 f)) = true) /\ bpow radix2 (-62) <= Rabs (val f32 (fsub f32 f (lh32 f))) <= 4 /\ Rabs (H - (F - F * F / 2)) <= / 1600.
Proof.
  intros Bf Ff Lo Hf F s H. fold F s in Lo, Hf. assert (S0 : 0 < s) by (pose proof (bpow_gt_0 radix2 (-60)); lra). assert (S1 : s <= 1) by (apply Rabs_le; lra).
  assert (HS : scal f32 s (2 ^ 110)). { split; [lra|]. split; [lia|]. apply Rle_trans with (bpow radix2 (-60) * fxr (2 ^ 110)); [|apply Rmult_le_compat_r; [apply fxr_pos; lia|exact Lo]]. change 110%Z with (200 - 90)%Z. rewrite fxr_pow by lia. rewrite <- bpow_plus. apply bpow_le. vm_compute. discriminate. }
  split; [exact HS|].
  destruct (half_exact f32 0x3f000000 f ltac:(vm_compute; discriminate) ltac:(vm_compute; reflexivity) ltac:(vm_compute; discriminate) eq_refl) as (Bm & Fm & Vm). { rewrite (val_lit f32 0x3f000000 1 2) by (vm_compute; reflexivity). lra. } { exact Ff. } { intros _; exact Lo. } { exact S1. }
  fold F in Vm.
  assert (GO : forall g a b, ko32 g a b (2 ^ 174) (25 * 2 ^ 191) (39 * 2 ^ 170) -> F = s * IZR g -> (g = 1 \/ g = -1)%Z -> fxr (q4 a) <= F <= fxr (q4 b) ->
    AP f32 s (hi32 f) (H / s) (- (5 * 2 ^ 198), 5 * 2 ^ 198, 0)%Z /\ AP f32 s (lo32 f) ((lG cl32 F - H) / s) (- (25 * 2 ^ 191), 25 * 2 ^ 191, 39 * 2 ^ 170)%Z /\ (isbits f32 (fsub f32 f (lh32 f)) /\ finite f32 (fsub f32 f (lh32 f)) = true) /\ bpow radix2 (-62) <= Rabs (val f32 (fsub f32 f (lh32 f))) <= 4 /\ Rabs (H - (F - F * F / 2)) <= / 1600).
  { intros g a b HP EG Hg Hab.
    assert (Z0 : forall c t, c = t -> Rabs (c - t) <= 1 * fxr 0) by (intros c t ->; unfold Rminus; rewrite Rplus_opp_r, Rabs_R0, fxr_0; lra).
    assert (Z1 : forall c t, c = s * t -> Rabs (c - s * t) <= s * fxr 0) by (intros c t ->; unfold Rminus; rewrite Rplus_opp_r, Rabs_R0, fxr_0; lra).
    set (T := F - F * F / 2). set (d := (T - H) / s).
    assert (AF : AP f32 s f (IZR g) (g * SC, g * SC, 0)%Z) by (split; [now split|]; split; [rewrite fxr_SC; lra|apply Z1; exact EG]).
    destruct (HP f F s d HS EG) as [AH AL].
    - split; [now split|]. split; [exact Hab|]. apply Z0. fold F. ring.
    - split; [now split|]. split; [|apply Z0; rewrite Vm; ring]. pose proof (fxr_half (q4 a)). pose proof (fxr_half2 (q4 b)). lra.
    - exact AF.
    - split; [now split|]. split; [|apply Z1; rewrite Vm; rewrite EG at 1; ring]. destruct Hg as [-> | ->]; [change (1 * SC / 2)%Z with (2 ^ (200 - 1))%Z; rewrite fxr_pow by lia|change (-1 * SC / 2)%Z with (- 2 ^ (200 - 1))%Z; rewrite fxr_opp, fxr_pow by lia]; change (bpow radix2 (-(1))) with (/ 2); lra.
    - assert (G1 : IZR g * IZR g = 1) by (destruct Hg as [-> | ->]; lra). assert (ET : T = s * (IZR g - / 2 * IZR g * F)). { unfold T. rewrite EG. nra. }
      assert (AH0 : AP f32 s (fsub f32 f (lh32 f)) (IZR g - / 2 * IZR g * F) ((- (5 * 2 ^ 198)), 5 * 2 ^ 198, 2 ^ 179)%Z).
      { destruct Hg as [-> | ->].
        - apy f32 s (fsub f32 f (lh32 f)) K. eapply AP_wk; [exact S0| |]; [eapply AP_re; [exact K|]; destruct K as (_ & K & _); split; eapply Rle_trans; [|apply K|apply K|]; apply fxr_le, Z.leb_le; vm_compute; reflexivity|vm_compute; reflexivity].
        - apy f32 s (fsub f32 f (lh32 f)) K. eapply AP_wk; [exact S0| |]; [eapply AP_re; [exact K|]; destruct K as (_ & K & _); split; eapply Rle_trans; [|apply K|apply K|]; apply fxr_le, Z.leb_le; vm_compute; reflexivity|vm_compute; reflexivity]. }
      destruct AH0 as ((B0 & F0) & _ & V0). destruct AH as ((Bh & Fh) & _ & Vh). rewrite <- ET in V0. change 179%Z with (200 - 21)%Z in V0. rewrite fxr2 in V0 by lia. change (2 ^ 21)%Z with 2097152%Z in V0.
      change 174%Z with (200 - 26)%Z in Vh. rewrite fxr2 in Vh by lia. change (2 ^ 26)%Z with 67108864%Z in Vh. set (h0 := fsub f32 f (lh32 f)) in *. 
      destruct (trunc_ok f32 12 h0 B0 F0 ltac:(split; vm_compute; discriminate)) as (Bt & Ft & Dt & Lt). change (trc 12 h0) with (hi32 f) in Bt, Ft, Dt, Lt. change (val f32 (hi32 f)) with H in Dt, Lt. change (bpow radix2 (12 - mw f32)) with (/ 2048) in Dt.
      assert (TN : bpow radix2 (12 + emin f32) <= s / 4294967296). { unfold Rdiv. change (/ 4294967296) with (bpow radix2 (-32)). apply Rle_trans with (bpow radix2 (-60) * bpow radix2 (-32)); [rewrite <- bpow_plus; apply bpow_le; vm_compute; discriminate|apply Rmult_le_compat_r; [apply bpow_ge_0|exact Lo]]. }
      assert (TB : Rabs T <= s * (123 / 100)). { rewrite ET, Rabs_mult, (Rabs_pos_eq s) by lra. apply Rmult_le_compat_l; [lra|]. apply Rabs_le. destruct Hg as [-> | ->]; lra. }
      assert (TL : s * (79 / 100) <= Rabs T). { rewrite ET, Rabs_mult, (Rabs_pos_eq s) by lra. apply Rmult_le_compat_l; [lra|]. replace (IZR g - / 2 * IZR g * F) with (IZR g * (1 - / 2 * F)) by ring. rewrite Rabs_mult, (Rabs_pos_eq (1 - / 2 * F)) by lra. destruct Hg as [-> | ->]; [rewrite Rabs_pos_eq by lra|rewrite Rabs_left by lra]; lra. }
      assert (H0B : Rabs (val f32 h0) <= s * (124 / 100)). { replace (val f32 h0) with ((val f32 h0 - T) + T) by ring. eapply Rle_trans; [apply Rabs_triang|]. lra. }
      assert (H0L : s * (78 / 100) <= Rabs (val f32 h0)). { pose proof (Rabs_triang_inv T (T - val f32 h0)) as Q. replace (T - (T - val f32 h0)) with (val f32 h0) in Q by ring. rewrite Rabs_minus_sym in V0. lra. }
      assert (HT : Rabs (H - T) <= s * (126 / 100 / 2048)). { replace (H - T) with ((H - val f32 h0) + (val f32 h0 - T)) by ring. eapply Rle_trans; [apply Rabs_triang|]. lra. }
      assert (HB : Rabs H <= s * (5 / 4)) by lra.
      split; [|split; [|split; [now split|split; [split; [apply Rle_trans with (s * / 4); [change (bpow radix2 (-62)) with (bpow radix2 (-60 + -2)); rewrite bpow_plus; change (bpow radix2 (-2)) with (/ 4); lra|lra]|lra]|change (F - F * F / 2) with T; lra]]]].
      + split; [now split|]. rewrite fxr_opp, fxr_mulZ. change (2 ^ 198)%Z with (2 ^ (200 - 2))%Z. rewrite fxr2 by lia. change (2 ^ 2)%Z with 4%Z. split; [|apply Z1; fold H; field; lra]. apply Rabs_le_inv in HB. split; apply Rmult_le_reg_r with s; try exact S0; unfold Rdiv; rewrite (Rmult_assoc H), Rinv_l by lra; lra.
      + replace ((lG cl32 F - H) / s) with (d + (lG cl32 F - (F - F * F / 2)) / s) by (unfold d, T; field; lra). apply AL. clear AL.
        assert (SE : F = s \/ F = - s) by (destruct Hg as [-> | ->]; lra). 
        destruct (sub_near f32 f (hi32 f) Ff Ft) as (Bd & Fd & Vd).
        { fold F. change (val f32 (hi32 f)) with H. apply Rabs_le_inv in HT. rewrite ET in HT. destruct Hg as [-> | ->]; [left|right]; nra. }
        { fold F. change (val f32 (hi32 f)) with H. apply Rle_trans with (bpow radix2 2); [|apply bpow_le; vm_compute; discriminate]. change (bpow radix2 2) with 4. apply Rabs_le_inv in HB. apply Rabs_le. lra. }
        fold F in Vd. change (val f32 (hi32 f)) with H in Vd.
        pose proof (fsub_spec f32 (fsub f32 f (hi32 f)) (lh32 f) Fd Fh) as RT. rewrite Vd in RT. replace (s * (/ 2 * IZR g * F)) with (F * F / 2) in Vh by (rewrite EG at 1 2; nra || (rewrite EG; nra)).
        assert (DE : Rabs (F - H - val f32 (lh32 f) - (T - H)) <= s * / 67108864). { replace (F - H - val f32 (lh32 f) - (T - H)) with (- (val f32 (lh32 f) - F * F / 2)) by (unfold T; field). rewrite Rabs_Ropp. exact Vh. }
        assert (DB : Rabs (F - H - val f32 (lh32 f)) <= s * (127 / 100 / 2048)). { replace (F - H - val f32 (lh32 f)) with ((F - H - val f32 (lh32 f) - (T - H)) + (T - H)) by ring. eapply Rle_trans; [apply Rabs_triang|]. rewrite (Rabs_minus_sym T H). lra. }
        destruct (rounds_fin f32 _ _ _ RT) as [Fe Ve]. { apply Rle_trans with (bpow radix2 2); [change (bpow radix2 2) with 4; lra|apply bpow_le; vm_compute; discriminate]. }
        pose proof (rndF_abs f32 (F - H - val f32 (lh32 f))) as RB. rewrite <- Ve in RB. change (bpow radix2 (- pr f32)) with (/ 16777216) in RB.
        assert (TM : bpow radix2 (emin f32 - 1) <= s * / IZR (2 ^ 80)). { change (/ IZR (2 ^ 80)) with (bpow radix2 (-80)). apply Rle_trans with (bpow radix2 (-60) * bpow radix2 (-80)); [rewrite <- bpow_plus; apply bpow_le; vm_compute; discriminate|apply Rmult_le_compat_r; [apply bpow_ge_0|exact Lo]]. }
        assert (DD : Rabs (T - H) <= s * (126 / 100 / 2048)) by (rewrite Rabs_minus_sym; exact HT).
        split; [split; [exact (proj1 RT)|exact Fe]|]. split.
        * rewrite fxr_opp. change 190%Z with (200 - 10)%Z. rewrite fxr2 by lia. change (2 ^ 10)%Z with 1024%Z. unfold d. apply Rabs_le_inv in DD. split; apply Rmult_le_reg_r with s; try exact S0; unfold Rdiv; rewrite (Rmult_assoc (T - H)), Rinv_l by lra; lra.
        * replace (s * d) with (T - H) by (unfold d; field; lra). rewrite fxr_add. change 174%Z with (200 - 26)%Z. change 166%Z with (200 - 34)%Z. rewrite !fxr2 by lia. change (2 ^ 26)%Z with 67108864%Z. change (2 ^ 34)%Z with 17179869184%Z. change (2 ^ 80)%Z with 1208925819614629174706176%Z in TM.
          change (val f32 (ld32 f)) with (val f32 (fsub f32 (fsub f32 f (hi32 f)) (lh32 f))). set (e := val f32 (fsub f32 (fsub f32 f (hi32 f)) (lh32 f))) in *. replace (e - (T - H)) with ((e - (F - H - val f32 (lh32 f))) + (F - H - val f32 (lh32 f) - (T - H))) by ring. eapply Rle_trans; [apply Rabs_triang|]. lra. }
  destruct (Rle_lt_dec F 0) as [N | N].
  - apply (GO _ _ _ koAf); [unfold s; rewrite Rabs_left1 by lra; change (IZR (-1)) with (-1); ring|now right|]. split; [apply q4_in2; lra|rewrite q4_0, fxr_0; lra].
  - assert (ES : F = s * 1) by (unfold s; rewrite Rabs_pos_eq by lra; ring).
    destruct (Rle_lt_dec F (fxr (q4 3300))) as [N2 | N2].
    + apply (GO _ _ _ koBf); [exact ES|now left|]. rewrite q4_0, fxr_0. lra.
    + apply (GO _ _ _ koCf); [exact ES|now left|]. split; [lra|]. apply q4_in. lra.
Qed.
