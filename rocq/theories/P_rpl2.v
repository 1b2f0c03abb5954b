(** rem_pio2_large: the integer part, the reflection and the digit searches (C38). *)
From Coq Require Import ZArith Reals Lia Lra Bool List Psatz.
From Flocq Require Import Core.
From Verif Require Import Base Spec SpecFun Format Ieee M_basic M_scalbn M_elib M_rempio2 P_ieee P_elem2 P_ival P_cf P_fx P_rpl.
Import ListNotations.
Open Scope Z_scope.
Open Scope fl_scope.

Ltac p31 := change (2 ^ (32 - 1)) with 2147483648 in *; change (2 ^ 64) with 18446744073709551616 in *.
Lemma half_cmp P h I a : 0 <= I < P -> (h * P <= I + a * P <-> h <= a).
Proof. intros H. split; intros; nia. Qed.
Lemma Iv_top l n : 1 <= n -> Iv l (Z.to_nat n) = Iv l (Z.to_nat (n - 1)) + nz l (n - 1) * 2 ^ (24 * (n - 1)).
Proof. intros H. replace (Z.to_nat n) with (S (Z.to_nat (n - 1))) by lia. cbn [Iv]. rewrite Z2Nat.id by lia. reflexivity. Qed.
Lemma dig_Iv l n m : dig l n -> 0 <= m <= n -> 0 <= Iv l (Z.to_nat m) < 2 ^ (24 * m).
Proof. intros (_ & D) H. pose proof (Iv_range l (Z.to_nat m)) as R. rewrite Z2Nat.id in R by lia. apply R. intros; apply D; lia. Qed.

Lemma rpl_n_ok z z0 q0 jz iq : fx z z0 0 -> 0 <= z0 < 2 ^ 51 -> -27 <= q0 <= 2 -> 1 <= jz <= 18 -> dig iq jz ->
  exists n ih z' iq' Zi N, rpl_n z q0 jz iq = Some (n, ih, z', iq') /\ fx z' Zi (Z.min q0 0) /\ 0 <= Zi < 2 ^ (- Z.min q0 0) /\ dig iq' jz /\
    z0 * 2 ^ (24 * jz) + Iv iq (Z.to_nat jz) = N * 2 ^ (24 * jz - q0) + (Zi * 2 ^ (24 * jz) + Iv iq' (Z.to_nat jz)) /\
    0 <= Zi * 2 ^ (24 * jz) + Iv iq' (Z.to_nat jz) < 2 ^ (24 * jz - q0) /\ n = N mod 8 /\
    (if 0 <? ih then 2 ^ (24 * jz - q0) <= 2 * (Zi * 2 ^ (24 * jz) + Iv iq' (Z.to_nat jz)) else 2 * (Zi * 2 ^ (24 * jz) + Iv iq' (Z.to_nat jz)) < 2 ^ (24 * jz - q0)) /\
    (0 <= q0 -> ih = 0 \/ ih = 1) /\ (q0 < 0 -> ih = 0 \/ ih = 2).
Proof.
  intros Hz Rz Hq Hj Hd. unfold rpl_n.
  destruct (fx_scalbn z z0 0 q0 Hz ltac:(lia) ltac:(lia) ltac:(lia)) as (zs & -> & Hzs). cbn [bind]. rewrite Z.add_0_l in Hzs.
  assert (Hz8 : fx (zs *: c_eighth) z0 (- (3 - q0))).
  { apply (fx_cast _ (z0 * 1) (q0 + -3)); [apply fx_mul; [exact Hzs|exact fx_eighth|lia|lia]|lia|lia]. }
  destruct (fx_floor _ _ _ Hz8 ltac:(lia)) as (fl & -> & Hfl). cbn [bind]. cbv zeta.
  set (t := z0 / 2 ^ (3 - q0)) in *.
  assert (P3 : 0 < 2 ^ (3 - q0)) by (apply Z.pow_pos_nonneg; lia).
  assert (Hdm := Z.div_mod z0 (2 ^ (3 - q0)) ltac:(lia)). fold t in Hdm. assert (Hmb := Z.mod_pos_bound z0 (2 ^ (3 - q0)) P3).
  set (r := z0 mod 2 ^ (3 - q0)) in *.
  assert (Ht : 0 <= t) by (apply Z.div_pos; lia).
  assert (F1 : fx (c_eight *: fl) (t * 2 ^ (3 - q0)) q0).
  { apply fx_shift; [lia|]. apply (fx_cast _ (1 * t) (3 + 0)); [apply fx_mul; [exact fx_eight|exact Hfl|nia|lia]|lia|lia]. }
  assert (F2 : fx (zs -: (c_eight *: fl)) r q0).
  { apply (fx_cast _ (z0 - t * 2 ^ (3 - q0)) q0); [apply fx_sub; try assumption; nia|lia|lia]. }
  set (z1 := zs -: (c_eight *: fl)) in *. clearbody z1. clear Hz8 F1 Hfl Hzs.
  assert (Hjp : 0 < 2 ^ (24 * (jz - 1))) by (apply Z.pow_pos_nonneg; lia).
  assert (HI := dig_Iv iq jz (jz - 1) Hd ltac:(lia)).
  destruct Hd as (Ll & Hd). pose proof (Hd (jz - 1) ltac:(lia)) as Ha. set (a := nz iq (jz - 1)) in *.
  destruct (Z.ltb_spec 0 q0) as [Q|Q].
  - (* q0 > 0 *)
    rewrite Z.min_r in * by lia. change (2 ^ (- 0)) with 1.
    assert (F3 : fx z1 (r * 2 ^ q0) 0) by (apply fx_shift; [lia|exact F2]).
    assert (P8 : 2 ^ (3 - q0) * 2 ^ q0 = 8) by (rewrite <- Z.pow_add_r by lia; replace (3 - q0 + q0) with 3 by lia; reflexivity).
    assert (Pq : 0 < 2 ^ q0) by (apply Z.pow_pos_nonneg; lia).
    rewrite (fx_toint z1 (r * 2 ^ q0)) by (try exact F3; nia).
    assert (F4 : fx (z1 -: of_int f64 (r * 2 ^ q0)) 0 0).
    { apply (fx_cast _ (r * 2 ^ q0 - r * 2 ^ q0) 0); [apply fx_sub; [exact F3|apply fx_int; nia|lia|lia]|lia|lia]. }
    rewrite usub_ok by lia. cbn [bind]. rewrite arr_get_ok by lia. fold a. cbn [bind].
    rewrite ssub_ok by (p31; lia). cbn [bind]. unfold sshr at 1. destruct (Z.leb_spec 0 (24 - q0)), (Z.ltb_spec (24 - q0) 32); try lia. cbn [andb bind].
    rewrite Z.shiftr_div_pow2 by lia. set (i := a / 2 ^ (24 - q0)).
    assert (Ps : 0 < 2 ^ (24 - q0)) by (apply Z.pow_pos_nonneg; lia).
    assert (Pss : 2 ^ (24 - q0) * 2 ^ q0 = 2 ^ 24) by (rewrite <- Z.pow_add_r by lia; f_equal; lia).
    assert (Him := Z.div_mod a (2 ^ (24 - q0)) ltac:(lia)). fold i in Him. assert (Hib := Z.mod_pos_bound a (2 ^ (24 - q0)) Ps).
    assert (Hi0 : 0 <= i) by (apply Z.div_pos; lia). assert (Hi1 : i < 2 ^ q0) by (apply Z.div_lt_upper_bound; lia).
    rewrite sadd_ok by (p31; nia). cbn [bind]. unfold sshl. destruct (Z.leb_spec 0 (24 - q0)), (Z.ltb_spec (24 - q0) 32); try lia. cbn [andb bind].
    rewrite Z.shiftl_mul_pow2 by lia. rewrite to_i_small by (p31; nia). rewrite ssub_ok by (p31; nia). cbn [bind].
    replace (a - i * 2 ^ (24 - q0)) with (a mod 2 ^ (24 - q0)) by lia. set (a' := a mod 2 ^ (24 - q0)) in *.
    destruct (arr_set_ok iq (jz - 1) a' ltac:(lia)) as (iq' & -> & L' & K). cbn [bind].
    rewrite ssub_ok by (p31; lia). cbn [bind]. unfold sshr at 1. destruct (Z.leb_spec 0 (23 - q0)), (Z.ltb_spec (23 - q0) 32); try lia. cbn [andb bind].
    rewrite Z.shiftr_div_pow2 by lia.
    assert (Ph : 0 < 2 ^ (23 - q0)) by (apply Z.pow_pos_nonneg; lia).
    assert (Phh : 2 ^ (24 - q0) = 2 * 2 ^ (23 - q0)) by (rewrite <- Z.pow_succ_r by lia; f_equal; lia).
    assert (E24 : 2 ^ (24 * jz) = 2 ^ 24 * 2 ^ (24 * (jz - 1))) by (rewrite <- Z.pow_add_r by lia; f_equal; lia).
    assert (E25 : 2 ^ (24 * jz - q0) = 2 ^ (24 - q0) * 2 ^ (24 * (jz - 1))) by (rewrite <- Z.pow_add_r by lia; f_equal; lia).
    assert (EI : Iv iq' (Z.to_nat jz) = Iv iq (Z.to_nat (jz - 1)) + a' * 2 ^ (24 * (jz - 1))).
    { rewrite Iv_top by lia. rewrite K, Z.eqb_refl by lia. f_equal. apply Iv_ext. intros j Hjj. rewrite K by lia. destruct (Z.eqb_spec j (jz - 1)); [lia|reflexivity]. }
    assert (EI0 : Iv iq (Z.to_nat jz) = Iv iq (Z.to_nat (jz - 1)) + a * 2 ^ (24 * (jz - 1))) by (apply Iv_top; lia).
    exists (r * 2 ^ q0 + i), (a' / 2 ^ (23 - q0)), (z1 -: of_int f64 (r * 2 ^ q0)), iq', 0, (z0 * 2 ^ q0 + i).
    split; [reflexivity|]. split; [exact F4|]. split; [lia|]. rewrite EI, EI0, E24, E25.
    set (P := 2 ^ (24 * (jz - 1))) in *. set (J := Iv iq (Z.to_nat (jz - 1))) in *. clearbody P J.
    split; [|split; [|split; [|split; [|split; [|split]]]]].
    + split; [lia|]. intros j Hjj. rewrite K by lia. destruct (Z.eqb_spec j (jz - 1)); [lia|]. apply Hd; lia.
    + rewrite Him at 1. rewrite <- Pss. ring.
    + nia.
    + rewrite Hdm. replace ((2 ^ (3 - q0) * t + r) * 2 ^ q0 + i) with (r * 2 ^ q0 + i + t * 8) by (rewrite <- P8; ring).
      rewrite Z.mod_add by lia. symmetry. apply Z.mod_small. nia.
    + assert (Hc := half_cmp P (2 ^ (23 - q0)) J a' HI). assert (Hd1 : 0 <= a' / 2 ^ (23 - q0)) by (apply Z.div_pos; lia).
      destruct (Z.ltb_spec 0 (a' / 2 ^ (23 - q0))) as [L|L].
      * assert (2 ^ (23 - q0) <= a'); [|nia]. destruct (Z_lt_le_dec a' (2 ^ (23 - q0))); [|assumption]. rewrite Z.div_small in L by lia. lia.
      * assert (a' < 2 ^ (23 - q0)); [|nia]. destruct (Z_lt_le_dec a' (2 ^ (23 - q0))); [assumption|].
        assert (1 <= a' / 2 ^ (23 - q0)); [|lia]. apply Z.div_le_lower_bound; lia.
    + intros _. assert (0 <= a' / 2 ^ (23 - q0)) by (apply Z.div_pos; lia). assert (a' / 2 ^ (23 - q0) < 2) by (apply Z.div_lt_upper_bound; lia). lia.
    + lia.
  - (* q0 <= 0 *)
    rewrite Z.min_l in * by lia.
    assert (Pq : 0 < 2 ^ (- q0)) by (apply Z.pow_pos_nonneg; lia).
    assert (P8 : 2 ^ (3 - q0) = 8 * 2 ^ (- q0)) by (change 8 with (2 ^ 3); rewrite <- Z.pow_add_r by lia; f_equal; lia).
    set (n := r / 2 ^ (- q0)). assert (Hn := Z.div_mod r (2 ^ (- q0)) ltac:(lia)). fold n in Hn. assert (Hnb := Z.mod_pos_bound r (2 ^ (- q0)) Pq).
    assert (Hn0 : 0 <= n < 8) by (unfold n; split; [apply Z.div_pos; lia|apply Z.div_lt_upper_bound; lia]).
    assert (T1 : to_i32 f64 z1 = n) by (apply fx_trunc; [lia|lia|apply (fx_cast _ r q0); [exact F2|reflexivity|lia]|fold n; lia]).
    rewrite T1. set (Zi := r mod 2 ^ (- q0)) in *.
    assert (F4 : fx (z1 -: of_int f64 n) Zi q0).
    { apply (fx_cast _ (r - n * 2 ^ (- q0)) q0); [|lia|reflexivity]. apply fx_sub; [exact F2| |nia|lia].
      apply fx_shift; [lia|]. rewrite Z.add_opp_diag_r. apply fx_int. lia. }
    assert (HN : z0 = (8 * t + n) * 2 ^ (- q0) + Zi) by (rewrite Hdm, P8; nia).
    assert (EN : (8 * t + n) mod 8 = n) by (rewrite Z.add_comm, Z.mul_comm, Z.mod_add by lia; apply Z.mod_small; lia).
    assert (E25 : 2 ^ (24 * jz - q0) = 2 ^ (- q0) * 2 ^ (24 * jz)) by (rewrite <- Z.pow_add_r by lia; f_equal; lia).
    assert (HIz := dig_Iv iq jz jz (conj Ll Hd) ltac:(lia)).
    destruct (Z.eqb_spec q0 0) as [Q0|Q0].
    + (* q0 = 0 *)
      rewrite usub_ok by lia. cbn [bind]. rewrite arr_get_ok by lia. fold a. cbn [bind].
      rewrite Z.shiftr_div_pow2 by lia.
      exists n, (a / 2 ^ 23), (z1 -: of_int f64 n), iq, Zi, (8 * t + n).
      assert (Zi = 0) as -> by (unfold Zi; rewrite Q0; apply Z.mod_1_r).
      split; [reflexivity|]. split; [exact F4|]. split; [lia|]. split; [split; assumption|].
      rewrite E25, Q0 in *. change (2 ^ - 0) with 1 in *.
      split; [rewrite HN; ring|]. split; [lia|]. split; [symmetry; exact EN|]. split.
      { rewrite Iv_top by lia. fold a.
        assert (E24 : 2 ^ (24 * jz) = 2 * (2 ^ 23 * 2 ^ (24 * (jz - 1)))) by (rewrite <- Z.pow_add_r, <- Z.pow_succ_r by lia; f_equal; lia).
        rewrite E24. assert (Hc := half_cmp _ (2 ^ 23) _ a HI). assert (0 <= a / 2 ^ 23) by (apply Z.div_pos; lia).
        destruct (Z.ltb_spec 0 (a / 2 ^ 23)) as [L|L].
        - assert (2 ^ 23 <= a); [|lia]. destruct (Z_lt_le_dec a (2 ^ 23)); [|assumption]. rewrite Z.div_small in L by lia. lia.
        - assert (a < 2 ^ 23); [|lia]. destruct (Z_lt_le_dec a (2 ^ 23)); [assumption|].
          assert (1 <= a / 2 ^ 23); [|lia]. apply Z.div_le_lower_bound; lia. }
      split; [|lia]. intros _. assert (0 <= a / 2 ^ 23) by (apply Z.div_pos; lia). assert (a / 2 ^ 23 < 2) by (apply Z.div_lt_upper_bound; lia). lia.
    + (* q0 < 0 *)
      assert (Hh : fx c_half (2 ^ (- q0 - 1)) q0).
      { apply (fx_cast _ (1 * 2 ^ (- q0 - 1)) q0); [|lia|reflexivity]. apply fx_shift; [lia|]. apply (fx_cast _ 1 (-1)); [exact fx_half|reflexivity|lia]. }
      rewrite (fx_ge _ _ _ _ _ F4 Hh).
      assert (E2 : 2 ^ (- q0) = 2 * 2 ^ (- q0 - 1)) by (rewrite <- Z.pow_succ_r by lia; f_equal; lia).
      assert (Hc := half_cmp _ (2 ^ (- q0 - 1)) _ Zi HIz).
      destruct (Z.leb_spec (2 ^ (- q0 - 1)) Zi) as [L|L].
      * exists n, 2, (z1 -: of_int f64 n), iq, Zi, (8 * t + n).
        split; [reflexivity|]. split; [exact F4|]. split; [lia|]. split; [split; assumption|]. rewrite E25.
        split; [rewrite HN; ring|]. split; [nia|]. split; [symmetry; exact EN|]. split; [cbn [Z.ltb Z.compare]; rewrite E2; nia|]. lia.
      * exists n, 0, (z1 -: of_int f64 n), iq, Zi, (8 * t + n).
        split; [reflexivity|]. split; [exact F4|]. split; [lia|]. split; [split; assumption|]. rewrite E25.
        split; [rewrite HN; ring|]. split; [nia|]. split; [symmetry; exact EN|]. split; [cbn [Z.ltb Z.compare]; rewrite E2; nia|]. lia.
Qed.

Lemma rpl_flip_ok n ih z Zi q0 jz iq : 0 <= n <= 7 -> -27 <= q0 <= 2 -> 1 <= jz <= 18 -> fx z Zi (Z.min q0 0) -> 0 <= Zi < 2 ^ (- Z.min q0 0) -> dig iq jz ->
  0 <= Zi * 2 ^ (24 * jz) + Iv iq (Z.to_nat jz) < 2 ^ (24 * jz - q0) ->
  (0 <= q0 -> ih = 0 \/ ih = 1) -> (q0 < 0 -> ih = 0 \/ ih = 2) ->
  (0 < ih -> 0 < Zi * 2 ^ (24 * jz) + Iv iq (Z.to_nat jz)) ->
  exists z' iq' Zi', rpl_flip n ih z q0 jz iq = Some (if 0 <? ih then n + 1 else n, z', iq') /\
    fx z' Zi' (Z.min q0 0) /\ (0 <= Zi' <= 2 ^ (- Z.min q0 0) /\ (0 <= q0 -> Zi' = 0)) /\ dig iq' jz /\
    Zi' * 2 ^ (24 * jz) + Iv iq' (Z.to_nat jz) =
      (if 0 <? ih then 2 ^ (24 * jz - q0) - (Zi * 2 ^ (24 * jz) + Iv iq (Z.to_nat jz)) else Zi * 2 ^ (24 * jz) + Iv iq (Z.to_nat jz)).
Proof.
  intros Hn Hq Hj Hz RZ (Ll & Hd) RQ I1 I2 I3. unfold rpl_flip.
  destruct (Z.ltb_spec 0 ih) as [I|I].
  2:{ exists z, iq, Zi. split; [reflexivity|]. split; [exact Hz|]. split; [|split; [split; assumption|reflexivity]].
      split; [lia|]. intros Q. rewrite Z.min_r in RZ by lia. change (2 ^ (- 0)) with 1 in RZ. lia. }
  specialize (I3 I). rewrite sadd_ok by (p31; lia). cbn [bind].
  forup (fun i (s : Z * list Z) => let '(c, l) := s in (c = 0 \/ c = 1) /\ Z.of_nat (length l) = 20 /\ (forall k, i <= k -> nz l k = nz iq k) /\
    (forall k, 0 <= k < i -> 0 <= nz l k < 2 ^ 24) /\ Iv l (Z.to_nat i) = c * 2 ^ (24 * i) - Iv iq (Z.to_nat i) /\ (c = 0 -> Iv iq (Z.to_nat i) = 0)) as (s & E & H); [lia| | |rewrite E].
  - split; [lia|]. split; [exact Ll|]. split; [reflexivity|]. split; [intros; lia|]. split; [reflexivity|reflexivity].
  - intros i [c l] Hi (C & L & Kh & Kl & EI & C0). rewrite arr_get_ok by lia. cbn [bind]. rewrite Kh by lia.
    assert (HI := dig_Iv iq jz i (conj Ll Hd) ltac:(lia)). pose proof (Hd i ltac:(lia)) as Ha.
    assert (Top : forall l', Iv l' (Z.to_nat (i + 1)) = Iv l' (Z.to_nat i) + nz l' i * 2 ^ (24 * i)) by (intros l'; rewrite Iv_top by lia; replace (i + 1 - 1) with i by lia; reflexivity).
    assert (E24 : 2 ^ (24 * (i + 1)) = 2 ^ 24 * 2 ^ (24 * i)) by (rewrite <- Z.pow_add_r by lia; f_equal; lia).
    assert (Upd : forall v l', 0 <= v < 2 ^ 24 -> length l' = length l -> (forall k, 0 <= k -> nz l' k = if k =? i then v else nz l k) ->
      Z.of_nat (length l') = 20 /\ (forall k, i + 1 <= k -> nz l' k = nz iq k) /\ (forall k, 0 <= k < i + 1 -> 0 <= nz l' k < 2 ^ 24) /\
      Iv l' (Z.to_nat (i + 1)) = Iv l (Z.to_nat i) + v * 2 ^ (24 * i)).
    { intros v l' Rv L' K. split; [lia|]. split; [|split].
      - intros k Hk. rewrite K by lia. destruct (Z.eqb_spec k i); [lia|]. apply Kh; lia.
      - intros k Hk. rewrite K by lia. destruct (Z.eqb_spec k i); [lia|]. apply Kl; lia.
      - rewrite Top, K, Z.eqb_refl by lia. f_equal. apply Iv_ext. intros k Hk. rewrite K by lia. destruct (Z.eqb_spec k i); [lia|reflexivity]. }
    destruct (Z.eqb_spec c 0) as [->|C1].
    + destruct (Z.eqb_spec (nz iq i) 0) as [Z0|Z0]; cbn [negb].
      * eexists; split; [reflexivity|]. cbv beta iota. split; [lia|]. split; [exact L|]. split; [intros; apply Kh; lia|]. split.
        { intros k Hk. destruct (Z.eq_dec k i) as [->|]; [rewrite Kh by lia; lia|apply Kl; lia]. }
        rewrite !Top, Kh by lia. rewrite Z0, EI. rewrite (C0 eq_refl). split; [ring|]. intros _. ring.
      * rewrite ssub_ok by (p31; lia). cbn [bind]. destruct (arr_set_ok l i (0x1000000 - nz iq i) ltac:(lia)) as (l' & -> & L' & K). cbn [bind].
        eexists; split; [reflexivity|]. cbv beta iota. destruct (Upd (0x1000000 - nz iq i) l' ltac:(lia) L' K) as (U1 & U2 & U3 & U4).
        split; [lia|]. split; [exact U1|]. split; [exact U2|]. split; [exact U3|]. split; [|lia].
        rewrite U4, EI, (Top iq), (C0 eq_refl), E24. change 0x1000000 with (2 ^ 24). ring.
    + assert (c = 1) as -> by lia. rewrite ssub_ok by (p31; lia). cbn [bind]. destruct (arr_set_ok l i (0xffffff - nz iq i) ltac:(lia)) as (l' & -> & L' & K). cbn [bind].
      eexists; split; [reflexivity|]. cbv beta iota. destruct (Upd (0xffffff - nz iq i) l' ltac:(lia) L' K) as (U1 & U2 & U3 & U4).
      split; [lia|]. split; [exact U1|]. split; [exact U2|]. split; [exact U3|]. split; [|lia].
      rewrite U4, EI, (Top iq), E24. change 0xffffff with (2 ^ 24 - 1). ring.
  - clear E. destruct s as [c l]. destruct H as (C & L & _ & Kl & EI & C0). replace (jz - 1 + 1) with jz in * by lia. cbn [bind].
    assert (HI := dig_Iv iq jz jz (conj Ll Hd) ltac:(lia)).
    destruct (Z_lt_le_dec q0 0) as [Q|Q].
    + (* q0 < 0 *)
      destruct (Z.eqb_spec q0 1); [lia|]. destruct (Z.eqb_spec q0 2); [lia|]. cbn [bind].
      assert (ih = 2) as -> by lia. cbn [Z.eqb Pos.eqb]. rewrite Z.min_l in * by lia.
      assert (Pq : 0 < 2 ^ (- q0) <= 2 ^ 27) by (split; [apply Z.pow_pos_nonneg; lia|apply Z.pow_le_mono_r; lia]).
      assert (F1 : fx c_one (2 ^ (- q0)) q0).
      { apply (fx_cast _ (1 * 2 ^ (- q0)) q0); [|lia|reflexivity]. apply fx_shift; [lia|]. apply (fx_cast _ 1 0); [exact fx_one|reflexivity|lia]. }
      assert (F2 : fx (c_one -: z) (2 ^ (- q0) - Zi) q0) by (apply fx_sub; try assumption; lia).
      assert (E25 : 2 ^ (24 * jz - q0) = 2 ^ (- q0) * 2 ^ (24 * jz)) by (rewrite <- Z.pow_add_r by lia; f_equal; lia).
      destruct (Z.eqb_spec c 0) as [->|C1]; cbn [negb].
      * exists (c_one -: z), l, (2 ^ (- q0) - Zi). split; [reflexivity|]. split; [exact F2|]. split; [lia|]. split; [split; assumption|].
        rewrite EI, E25. ring.
      * assert (c = 1) as -> by lia.
        destruct (fx_scalbn c_one 1 0 q0 fx_one ltac:(lia) ltac:(lia) ltac:(lia)) as (t & -> & Ht). cbn [bind]. rewrite Z.add_0_l in Ht.
        exists (c_one -: z -: t), l, (2 ^ (- q0) - Zi - 1). split; [reflexivity|]. split; [apply fx_sub; try assumption; lia|]. split; [lia|]. split; [split; assumption|].
        rewrite EI, E25. ring.
    + (* q0 >= 0 *)
      rewrite Z.min_r in * by lia. change (2 ^ (- 0)) with 1 in *. assert (Zi = 0) as -> by lia.
      assert (ih = 1) as -> by lia. change (1 =? 2) with false. cbv iota.
      assert (c = 1) as -> by (destruct C as [-> |]; [exfalso; specialize (C0 eq_refl); lia|assumption]).
      assert (Msk : 1 <= q0 -> exists l', arr_set l (jz - 1) (Z.land (nz l (jz - 1)) (2 ^ (24 - q0) - 1)) = Some l' /\ dig l' jz /\
         Iv l' (Z.to_nat jz) = 2 ^ (24 * jz - q0) - Iv iq (Z.to_nat jz)).
      { intros Q1. rewrite land_pow2m1 by lia. destruct (arr_set_ok l (jz - 1) (nz l (jz - 1) mod 2 ^ (24 - q0)) ltac:(lia)) as (l' & -> & L' & K).
        exists l'. split; [reflexivity|].
        pose proof (Kl (jz - 1) ltac:(lia)) as Ha. set (a := nz l (jz - 1)) in *.
        assert (Ps : 0 < 2 ^ (24 - q0)) by (apply Z.pow_pos_nonneg; lia).
        assert (Pss : 2 ^ 24 = 2 ^ q0 * 2 ^ (24 - q0)) by (rewrite <- Z.pow_add_r by lia; f_equal; lia).
        assert (Him := Z.div_mod a (2 ^ (24 - q0)) ltac:(lia)). assert (Hib := Z.mod_pos_bound a (2 ^ (24 - q0)) Ps).
        set (a' := a mod 2 ^ (24 - q0)) in *. set (t := a / 2 ^ (24 - q0)) in *.
        assert (Pq : 0 < 2 ^ q0) by (apply Z.pow_pos_nonneg; lia).
        split; [split; [lia|]; intros k Hk; rewrite K by lia; destruct (Z.eqb_spec k (jz - 1)); [nia|apply Kl; lia]|].
        assert (HIm := dig_Iv l jz (jz - 1) (conj L Kl) ltac:(lia)).
        assert (EL : Iv l' (Z.to_nat jz) = Iv l (Z.to_nat (jz - 1)) + a' * 2 ^ (24 * (jz - 1))).
        { rewrite Iv_top by lia. rewrite K, Z.eqb_refl by lia. f_equal. apply Iv_ext. intros k Hk. rewrite K by lia. destruct (Z.eqb_spec k (jz - 1)); [lia|reflexivity]. }
        rewrite (Iv_top l) in EI by lia. fold a in EI.
        assert (E24 : 2 ^ (24 * jz) = 2 ^ q0 * 2 ^ (24 * jz - q0)) by (rewrite <- Z.pow_add_r by lia; f_equal; lia).
        assert (E25 : 2 ^ (24 * jz - q0) = 2 ^ (24 - q0) * 2 ^ (24 * (jz - 1))) by (rewrite <- Z.pow_add_r by lia; f_equal; lia).
        rewrite E24 in EI. set (P := 2 ^ (24 * (jz - 1))) in *. set (B := 2 ^ (24 * jz - q0)) in *.
        assert (V : Iv l' (Z.to_nat jz) = (2 ^ q0 - t) * B - Iv iq (Z.to_nat jz)).
        { rewrite EL. transitivity (Iv l (Z.to_nat (jz - 1)) + a * P - t * B); [rewrite Him at 1; rewrite E25; ring|]. rewrite EI. ring. }
        assert (VR : 0 <= Iv l' (Z.to_nat jz) < B) by (rewrite EL, E25; nia).
        assert (2 ^ q0 - t = 1) as M1; [|rewrite V, M1; ring].
        rewrite V in VR. clear - VR RQ I3. nia. }
      destruct (Z.eqb_spec q0 1) as [->|Q1]; [|destruct (Z.eqb_spec q0 2) as [->|Q2]].
      * rewrite usub_ok by lia. cbn [bind]. rewrite arr_get_ok by lia. cbn [bind]. destruct (Msk ltac:(lia)) as (l' & M1 & M2 & M3).
        change (2 ^ (24 - 1) - 1) with 0x7fffff in M1. rewrite M1. cbn [bind]. exists z, l', 0. split; [reflexivity|]. split; [exact Hz|]. split; [lia|]. split; [exact M2|]. rewrite M3. ring.
      * rewrite usub_ok by lia. cbn [bind]. rewrite arr_get_ok by lia. cbn [bind]. destruct (Msk ltac:(lia)) as (l' & M1 & M2 & M3).
        change (2 ^ (24 - 2) - 1) with 0x3fffff in M1. rewrite M1. cbn [bind]. exists z, l', 0. split; [reflexivity|]. split; [exact Hz|]. split; [lia|]. split; [exact M2|]. rewrite M3. ring.
      * cbn [bind]. assert (q0 = 0) as -> by lia. exists z, l, 0. split; [reflexivity|]. split; [exact Hz|]. split; [lia|]. split; [split; assumption|].
        rewrite EI, Z.sub_0_r. ring.
Qed.

Lemma Iv_nonzero l n : Iv l n <> 0 -> exists i, 0 <= i < Z.of_nat n /\ nz l i <> 0.
Proof.
  induction n as [|n IH]; [intros []; reflexivity|]. cbn [Iv]. intros H. destruct (Z.eq_dec (nz l (Z.of_nat n)) 0) as [E|E].
  - rewrite E in H. destruct IH as (i & Hi & Ni); [lia|]. exists i. split; [lia|exact Ni].
  - exists (Z.of_nat n). split; [lia|exact E].
Qed.
Lemma Iv_zeros l n m : 0 <= n <= m -> (forall i, n <= i < m -> nz l i = 0) -> Iv l (Z.to_nat m) = Iv l (Z.to_nat n).
Proof.
  intros H Hz. replace m with (n + Z.of_nat (Z.to_nat (m - n))) in * by lia. induction (Z.to_nat (m - n)) as [|k IH]; [f_equal; lia|].
  rewrite Iv_top by lia. rewrite Hz by lia. replace (n + Z.of_nat (S k) - 1) with (n + Z.of_nat k) by lia. rewrite IH; [ring|lia|intros; apply Hz; lia].
Qed.

