(** The last step of [pow] and [powf]: rounding the exponent to an integer and the exponential never panic. *)
From Coq Require Import ZArith Reals Lia Lra Bool List Psatz.
From Flocq Require Import Core.
From Verif Require Import Base Spec Format P_format Ieee P_ieee P_real P_neg P_key P_elem P_elem2 P_tot P_exp P_lit P_err P_dom P_apx P_ival P_ival2 P_tan64o P_red64b P_powt P_powt2 P_powt3 P_powt4 M_basic M_scalbn M_elib M_pow.
Open Scope Z_scope.
Local Opaque fadd fsub fmul fdiv.

Lemma absval32 lo hi x : isbits f32 x -> 0 <= lo -> lo <= a32 x <= hi -> hi < 0x7f800000 -> (val f32 lo <= Rabs (val f32 x) <= val f32 hi)%R.
Proof.
  intros B L H Hh. destruct (val_a32 x B) as (B1 & E1 & F1 & V1). rewrite <- V1. destruct (bits32 x B) as [_ R]. destruct (pos32 (a32 x) R) as (_ & _ & S).
  pose proof (IN_pos32 lo hi (a32 x) B1 S L ltac:(lia) Hh) as (_ & _ & I). exact I.
Qed.
Lemma wsl x : isbits f64 x -> with_set_low_word x 0 = trc 32 x.
Proof. intros [B1 B2]. unfold with_set_low_word, trc. change (2 ^ width f64) with (2 ^ 64) in B2. rewrite land_mask32 by lia. apply Z.lor_0_r. Qed.
Lemma wshi x h : 0 <= h < 2 ^ 32 -> with_set_high_word x h = h * 2 ^ 32 + x mod 2 ^ 32.
Proof.
  intros H. unfold with_set_high_word, shlu. rewrite Z.shiftl_mul_pow2 by lia. rewrite Z.mod_small by lia. change 0xffffffff with (Z.ones 32). rewrite Z.land_ones by lia.
  rewrite Z.lor_comm. apply lor_disjoint; [lia|]. apply Z.mod_pos_bound. lia.
Qed.
Definition ez6 (t_3 p_l_1 p_h_1 : Z) : Z :=
  let u_3 := t_3 *: rs_pow_LG2_H in
  let v_3 := ((p_l_1 -: (t_3 -: p_h_1)) *: rs_pow_LG2) +: (t_3 *: rs_pow_LG2_L) in
  let z_2 := u_3 +: v_3 in
  let w_1 := v_3 -: (z_2 -: u_3) in
  let t_4 := z_2 *: z_2 in
  let t1_1 := z_2 -: (t_4 *: (rs_pow_P1 +: (t_4 *: (rs_pow_P2 +: (t_4 *: (rs_pow_P3 +: (t_4 *: (rs_pow_P4 +: (t_4 *: rs_pow_P5))))))))) in
  let r_1 := ((z_2 *: t1_1) /: (t1_1 -: 0x4000000000000000 (* 2.0 *))) -: (w_1 +: (z_2 *: w_1)) in
  0x3ff0000000000000 (* 1.0 *) -: (r_1 -: z_2).
Definition fin6 (s z_2 n_1 : Z) : option Z :=
  let j_1 := to_i 32 (get_high_word z_2) in
  let* j_1 := sadd 32 j_1 (shli 32 n_1 20) in
  let* z_2 :=
    (if (Z.shiftr j_1 20) <=? 0 then scalbn f64 z_2 n_1
     else 
       let z_2 := with_set_high_word z_2 (to_u 32 j_1) in
       Some z_2) in
  Some (s *: z_2).
Definition ez3 (t p_l p_h : Z) : Z :=
  let u := t *' rs_powf_LG2_H in
  let v := ((p_l -' (t -' p_h)) *' rs_powf_LG2) +' (t *' rs_powf_LG2_L) in
  let z := u +' v in
  let w := v -' (z -' u) in
  let t := z *' z in
  let t1 := z -' (t *' (rs_powf_P1 +' (t *' (rs_powf_P2 +' (t *' (rs_powf_P3 +' (t *' (rs_powf_P4 +' (t *' rs_powf_P5))))))))) in
  let r := ((z *' t1) /' (t1 -' 0x40000000 (* 2.0 *))) -' (w +' (z *' w)) in
  0x3f800000 (* 1.0 *) -' (r -' z).
Definition fin3 (sn z n : Z) : option Z :=
  let j := to_i 32 z in
  let* j := sadd 32 j (shli 32 n 23) in
  let* z :=
    (if (Z.shiftr j 23) <=? 0 then scalbn f32 z n
     else 
       let z := to_u 32 j in
       Some z) in
  Some (sn *' z).
Lemma ez6_eq pl ph : ez6 (trc 32 (pl +: ph)) pl ph = exz pl ph. Proof. reflexivity. Qed.
Lemma ez3_eq pl ph : ez3 (trc 15 (pl +' ph)) pl ph = exzf pl ph. Proof. reflexivity. Qed.
Lemma shli_ok n k B : 0 <= k -> -B <= n <= B -> B * 2 ^ k < 2 ^ 31 -> shli 32 n k = n * 2 ^ k.
Proof.
  intros K N H. unfold shli. rewrite Z.shiftl_mul_pow2 by lia. unfold to_i. change (32 - 1) with 31. assert (P : 0 < 2 ^ k) by (apply Z.pow_pos_nonneg; lia).
  assert (-2 ^ 31 < n * 2 ^ k < 2 ^ 31) by nia. set (a := n * 2 ^ k) in *. clearbody a. destruct (Z_lt_le_dec a 0).
  - rewrite <- (Z.mod_unique a (2 ^ 32) (-1) (a + 2 ^ 32)) by lia. cbv zeta. destruct (Z.ltb_spec (a + 2 ^ 32) (2 ^ 31)); lia.
  - rewrite Z.mod_small by lia. cbv zeta. rewrite (proj2 (Z.ltb_lt _ _)) by lia. reflexivity.
Qed.
Lemma fin6_ok s pl ph n : isbits f64 pl -> finite f64 pl = true -> isbits f64 ph -> finite f64 ph = true -> (Rabs (val f64 pl) <= 1 / 4)%R -> (Rabs (val f64 pl + val f64 ph) <= 0.52)%R -> -1075 <= n <= 1024 ->
  exists r, fin6 s (ez6 (with_set_low_word (pl +: ph) 0) pl ph) n = Some r /\ isbits f64 r.
Proof.
  intros B1 F1 B2 F2 L S N. pose proof (exz_in pl ph B1 F1 B2 F2 L S) as I. rewrite wsl by (apply fadd_isbits; assumption). rewrite ez6_eq. set (z := exz pl ph) in *. clearbody z. unfold fin6. pose proof (IN_bitsb f64 _ _ z I eq_refl) as Z1. pose proof (proj1 I) as BZ.
  unfold get_high_word, to_u. rewrite Z.shiftr_div_pow2 by lia. set (h := z / 2 ^ 32). assert (H1 : 0x3fd00000 <= h <= 0x3ffc0000). { unfold h. split; [apply Z.div_le_lower_bound; lia|]. enough (z / 2 ^ 32 < 0x3ffc0001) by lia. apply Z.div_lt_upper_bound; lia. }
  rewrite (Z.mod_small h (2 ^ 32)) by lia. assert (TI : to_i 32 h = h) by (unfold to_i; rewrite Z.mod_small by lia; cbv zeta; rewrite (proj2 (Z.ltb_lt _ _)) by lia; reflexivity). rewrite TI.
  rewrite (shli_ok n 20 1075) by lia. rewrite sadd_ok by lia. cbn [bind]. rewrite Z.shiftr_div_pow2 by lia.
  destruct (Z.leb_spec ((h + n * 2 ^ 20) / 2 ^ 20) 0) as [C|C].
  - destruct (scalbn64_tot z n BZ ltac:(lia)) as (r & -> & BR). cbn [bind]. eexists; split; [reflexivity|apply fmul_isbits].
  - cbn [bind]. eexists; split; [reflexivity|apply fmul_isbits].
Qed.
Lemma trc15 x : isbits f32 x -> Z.land (to_u 32 (to_i 32 x)) 0xffff8000 = trc 15 x.
Proof.
  intros [B1 B2]. change (2 ^ width f32) with (2 ^ 32) in B2. replace (to_u 32 (to_i 32 x)) with x. { exact (land_unot_low 32 x 15 ltac:(lia) ltac:(lia)). }
  unfold to_u, to_i. rewrite (Z.mod_small x) by lia. cbv zeta. destruct (Z.ltb_spec x (2 ^ (32 - 1))); [rewrite Z.mod_small by lia; reflexivity|]. apply Z.mod_unique with (-1); lia.
Qed.
Lemma trc12 x : isbits f32 x -> Z.land (to_u 32 (to_i 32 x)) 0xfffff000 = trc 12 x.
Proof.
  intros [B1 B2]. change (2 ^ width f32) with (2 ^ 32) in B2. replace (to_u 32 (to_i 32 x)) with x. { exact (land_unot_low 32 x 12 ltac:(lia) ltac:(lia)). }
  unfold to_u, to_i. rewrite (Z.mod_small x) by lia. cbv zeta. destruct (Z.ltb_spec x (2 ^ (32 - 1))); [rewrite Z.mod_small by lia; reflexivity|]. apply Z.mod_unique with (-1); lia.
Qed.
Lemma fin3_ok s pl ph n : isbits f32 pl -> finite f32 pl = true -> isbits f32 ph -> finite f32 ph = true -> (Rabs (val f32 pl) <= 1 / 4)%R -> (Rabs (val f32 pl + val f32 ph) <= 0.52)%R -> -150 <= n <= 128 ->
  exists r, fin3 s (ez3 (Z.land (to_u 32 (to_i 32 (pl +' ph))) 0xffff8000) pl ph) n = Some r /\ isbits f32 r.
Proof.
  intros B1 F1 B2 F2 L S N. pose proof (exzf_in pl ph B1 F1 B2 F2 L S) as I. rewrite trc15 by (apply fadd_isbits; assumption). rewrite ez3_eq. set (z := exzf pl ph) in *. clearbody z. unfold fin3. cbv zeta. pose proof (IN_bitsb f32 _ _ z I eq_refl) as Z1. pose proof (proj1 I) as BZ.
  assert (TI : to_i 32 z = z) by (unfold to_i; rewrite Z.mod_small by lia; cbv zeta; rewrite (proj2 (Z.ltb_lt _ _)) by lia; reflexivity). rewrite TI.
  rewrite (shli_ok n 23 150) by lia. rewrite sadd_ok by lia. cbn [bind]. rewrite Z.shiftr_div_pow2 by lia.
  destruct (Z.leb_spec ((z + n * 2 ^ 23) / 2 ^ 23) 0) as [C|C].
  - destruct (scalbn32_tot z n BZ ltac:(lia)) as (r & -> & BR). cbn [bind]. eexists; split; [reflexivity|apply fmul_isbits].
  - cbn [bind]. eexists; split; [reflexivity|apply fmul_isbits].
Qed.
Lemma pow6_split s pl ph j : rs_pow_6 s pl ph j =
  (let i_1 := Z.land j 0x7fffffff in
  let* k := ssub 32 (Z.shiftr i_1 20) 1023 in
  let n_1 := 0 in
  let* (n_1, p_h_1) :=
    (if 0x3fe00000 <? i_1 then
       let* v46 := sadd 32 k 1 in
       let* v47 := sshr 32 0x100000 v46 in
       let* n_1 := sadd 32 j v47 in
       let* k := ssub 32 (Z.shiftr (Z.land n_1 0x7fffffff) 20) 1023 in
       let* v50 := sshr 32 0xfffff k in
       let t_2 := with_set_high_word 0 (* 0.0 *) (to_u 32 (Z.land n_1 (Z.lnot v50))) in
       let* v51 := ssub 32 20 k in
       let* n_1 := sshr 32 (Z.lor (Z.land n_1 0xfffff) 0x100000) v51 in
       let* n_1 :=
         (if j <? 0 then sneg 32 n_1
          else Some n_1) in
       let p_h_1 := ph -: t_2 in
       Some (n_1, p_h_1)
     else Some (n_1, ph)) in
  fin6 s (ez6 (with_set_low_word (pl +: p_h_1) 0) pl p_h_1) n_1).
Proof. reflexivity. Qed.
Lemma powf3_split p_h p_l sn j : rs_powf_3 p_h p_l sn j =
  (let i := Z.land j 0x7fffffff in
  let* k := ssub 32 (Z.shiftr i 23) 127 in
  let n := 0 in
  let* (n, p_h) :=
    (if 0x3f000000 <? i then
       let* v33 := sadd 32 k 1 in
       let* v34 := sshr 32 0x800000 v33 in
       let* n := sadd 32 j v34 in
       let* k := ssub 32 (Z.shiftr (Z.land n 0x7fffffff) 23) 127 in
       let* v37 := ushr 32 0x7fffff k in
       let t := Z.land (to_u 32 n) (unot 32 v37) in
       let* v38 := ssub 32 23 k in
       let* n := sshr 32 (Z.lor (Z.land n 0x7fffff) 0x800000) v38 in
       let* n :=
         (if j <? 0 then sneg 32 n
          else Some n) in
       let p_h := p_h -' t in
       Some (n, p_h)
     else Some (n, p_h)) in
  fin3 sn (ez3 (Z.land (to_u 32 (to_i 32 (p_l +' p_h))) 0xffff8000) p_l p_h) n).
Proof. reflexivity. Qed.
Lemma to_i_hi x : isbits f64 x -> to_i 32 (Z.shiftr x 32) = a64 x / 2 ^ 32 - sg31 (signbit f64 x) /\ 0 <= a64 x / 2 ^ 32 < 2 ^ 31.
Proof.
  intros B. pose proof (hw64 x B) as H. destruct (bits64 x B) as [_ R]. assert (A : 0 <= a64 x / 2 ^ 32 < 2 ^ 31) by (split; [apply Z.div_pos; lia|apply Z.div_lt_upper_bound; lia]). split; [|exact A].
  unfold to_i. unfold to_u in H. rewrite H. cbv zeta. change (32 - 1) with 31. set (a := a64 x / 2 ^ 32) in *. clearbody a. clear H. destruct (signbit f64 x); cbn [sg31 bs]; [destruct (Z.ltb_spec (1 * 2 ^ 31 + a) (2 ^ 31))|destruct (Z.ltb_spec (0 * 2 ^ 31 + a) (2 ^ 31))]; lia.
Qed.
Lemma to_i_b32 x : isbits f32 x -> to_i 32 x = a32 x - sg31 (signbit f32 x) /\ 0 <= a32 x < 2 ^ 31.
Proof.
  intros B. destruct (bits32 x B) as [H A]. split; [|exact A]. unfold to_i. rewrite Z.mod_small by (destruct B as [B1 B2]; change (2 ^ width f32) with (2 ^ 32) in B2; lia). cbv zeta. change (32 - 1) with 31.
  set (a := a32 x) in *. clearbody a. destruct (signbit f32 x); cbn [sg31]; unfold bs in H; destruct (Z.ltb_spec x (2 ^ 31)); lia.
Qed.

Lemma pow6_tot s pl ph z j : isbits f64 pl -> finite f64 pl = true -> isbits f64 ph -> finite f64 ph = true -> isbits f64 z -> (Rabs (val f64 pl) <= 1 / 4)%R -> (Rabs (val f64 z - (val f64 pl + val f64 ph)) <= 0.01)%R ->
  j = to_i 32 (Z.shiftr z 32) -> Z.land j 0x7fffffff <= 0x4090cc00 -> j <= 0x40900000 -> exists r, rs_pow_6 s pl ph j = Some r /\ isbits f64 r.
Proof.
  intros B1 F1 B2 F2 BZ L D Hj J1 J2. destruct (to_i_hi z BZ) as [TI A]. pose proof (magz64 z BZ) as MZ. pose proof (fields_range f64 z) as [R1 R2]. change (2 ^ mw f64) with (2 ^ 52) in R1. change (2 ^ ew f64) with 2048 in R2.
  set (a := a64 z / 2 ^ 32) in *. set (E := expf f64 z) in *. set (M := sigf f64 z) in *. set (b := signbit f64 z) in *.
  assert (LJ : Z.land j 0x7fffffff = a). { rewrite Hj, TI. rewrite land31. symmetry. apply Z.mod_unique with (if b then -1 else 0); [left; lia|]. destruct b; cbn [sg31]; lia. }
  assert (EA : a = E * 2 ^ 20 + M / 2 ^ 32). { unfold a. rewrite MZ. replace (E * 2 ^ 52 + M) with (M + (E * 2 ^ 20) * 2 ^ 32) by ring. rewrite Z.div_add by lia. lia. }
  pose proof (Z.div_mod M (2 ^ 32) ltac:(lia)) as DM. pose proof (Z.mod_pos_bound M (2 ^ 32) ltac:(lia)) as MB. set (m := M / 2 ^ 32) in *. set (lo := M mod 2 ^ 32) in *.
  assert (Hm : 0 <= m < 2 ^ 20) by (unfold m; split; [apply Z.div_pos; lia|apply Z.div_lt_upper_bound; lia]).
  rewrite pow6_split. cbv zeta. rewrite LJ. rewrite LJ in J1. destruct (Z.ltb_spec 0x3fe00000 a) as [C|C].
  - destruct (nint_code 20 1023 b (E - 1023) m a j ltac:(left; lia) ltac:(lia) Hm ltac:(lia) ltac:(lia)) as (_ & N1 & N2 & N3 & j' & k' & n & m' & N4 & N5 & N6 & _ & N7 & _ & N8 & N9 & HK & Hm' & EN & PN & RB & SJ).
    rewrite N1. cbn [bind]. rewrite N2. cbn [bind]. change 0x100000 with (2 ^ 20). rewrite N3. cbn [bind]. rewrite N4. cbn [bind]. rewrite N5. cbn [bind]. change 0xfffff with (2 ^ 20 - 1). rewrite N6. cbn [bind]. rewrite N8. cbn [bind]. rewrite N9. cbn [bind]. rewrite SJ, N7.
    assert (HD : 2 ^ (20 - 1 - (E - 1023)) = 2 ^ 11 * 2 ^ (8 - (E - 1023)) \/ True) by now right. clear HD.
    set (d := 2 ^ (20 - 1 - (E - 1023))) in *. assert (DP : 0 < d) by (apply Z.pow_pos_nonneg; lia).
    assert (BD : (IZR d * bpow radix2 (E - 1023 - 20) = / 2)%R). { unfold d. rewrite (IZR_Zpower radix2) by lia. rewrite <- bpow_plus. replace (20 - 1 - (E - 1023) + (E - 1023 - 20)) with (-1) by lia. reflexivity. }
    set (u := bpow radix2 (E - 1023 - 20)) in *. assert (UP : (0 < u)%R) by apply bpow_gt_0.
    assert (US : (u <= / 1024)%R) by (change (/ 1024)%R with (bpow radix2 (-10)); apply bpow_le; lia).
    set (X := (IZR (2 ^ 52 + M) * bpow radix2 (E - 1023 - 52))%R).
    assert (VZ : val f64 z = sval b X). { unfold val, mag_of. fold E M b. rewrite (proj2 (Z.eqb_neq E 0)) by lia. reflexivity. }
    assert (EX : (X = (IZR (2 ^ 20 + m) + IZR lo * / 4294967296) * u)%R).
    { unfold X. replace (E - 1023 - 52) with ((E - 1023 - 20) + (-32)) by lia. rewrite bpow_plus. fold u. change (bpow radix2 (-32)) with (/ 4294967296)%R. replace (2 ^ 52 + M) with ((2 ^ 20 + m) * 4294967296 + lo) by lia. rewrite (plus_IZR (_ * _)), mult_IZR. field. }
    assert (XN : (Rabs (X - IZR n) <= 0.502)%R).
    { assert (L1 : (0 <= IZR lo * / 4294967296 <= 1)%R) by (assert (0 <= IZR lo <= 4294967296)%R by (split; apply IZR_le; lia); lra).
      assert (L2 : (- IZR d <= IZR (2 ^ 20 + m) - IZR n * (2 * IZR d) <= IZR d)%R). { rewrite <- opp_IZR, <- mult_IZR, <- mult_IZR, <- minus_IZR. split; apply IZR_le; lia. }
      assert (E0 : (X - IZR n = (IZR (2 ^ 20 + m) - IZR n * (2 * IZR d)) * u + IZR lo * / 4294967296 * u)%R). { rewrite EX. replace (IZR n) with (IZR n * (2 * (IZR d * u)))%R at 1 by (rewrite BD; field). ring. }
      rewrite E0. set (e := (IZR (2 ^ 20 + m) - IZR n * (2 * IZR d))%R) in *. set (l := (IZR lo * / 4294967296)%R) in *. assert (Q1 : (- / 2 <= e * u <= / 2)%R) by (rewrite <- BD; split; nra). assert (Q2 : (0 <= l * u <= u)%R) by (split; nra). apply Rabs_le. lra. }
    set (tn := with_set_high_word 0 (sg31 b + (k' + 1023) * 2 ^ 20 + m')).
    assert (ET : tn = mkbits f64 b (k' + 1023) (m' * 2 ^ 32)). { unfold tn. rewrite wshi by (destruct b; cbn [sg31]; lia). change (0 mod 2 ^ 32) with 0. unfold mkbits. change (mw f64 + ew f64) with 63. change (mw f64) with 52. destruct b; cbn [sg31]; lia. }
    destruct (valm f64 b (k' + 1023) (m' * 2 ^ 32)) as (TB & TF & TV); [change (2 ^ ew f64) with 2048; lia|change (2 ^ mw f64) with (2 ^ 52); lia|]. rewrite <- ET in TB, TF, TV.
    assert (VT : val f64 tn = sval b (IZR n)). { rewrite TV. f_equal. change (mw f64) with 52. change (bias f64) with 1023. replace (2 ^ 52 + m' * 2 ^ 32) with (n * 2 ^ (20 - k') * 2 ^ 32) by lia. rewrite !mult_IZR. rewrite (IZR_Zpower radix2 (20 - k') ltac:(lia) : IZR (2 ^ (20 - k')) = _). change (IZR (2 ^ 32)) with (bpow radix2 32). rewrite !Rmult_assoc, <- !bpow_plus. replace (20 - k' + (32 + (k' + 1023 - 1023 - 52))) with 0 by lia. apply Rmult_1_r. }
    clearbody tn. assert (NB : (if b then n <= 1075 else n <= 1024)).
    { assert (K : (X <= if b then 1075.01 else 1024.1)%R).
      { assert (AV : Rabs (val f64 z) = X). { rewrite VZ. assert (0 <= X)%R by (rewrite EX; assert (0 <= IZR lo * / 4294967296)%R by (assert (0 <= IZR lo)%R by (apply IZR_le; lia); lra); assert (0 <= IZR (2 ^ 20 + m))%R by (apply IZR_le; lia); nra). destruct b; unfold sval; [rewrite Rabs_Ropp|]; apply Rabs_pos_eq; assumption. }
        rewrite <- AV. pose proof (Z.div_mod (a64 z) (2 ^ 32) ltac:(lia)) as DA. pose proof (Z.mod_pos_bound (a64 z) (2 ^ 32) ltac:(lia)) as MA. fold a in DA. destruct b.
        - destruct (absval64 0 0x4090cc0100000000 z BZ ltac:(lia)) as [_ H]; [lia|lia|]. assert (V : val f64 0x4090cc0100000000 = (1100801 / 1024)%R) by lit. rewrite V in H. lra.
        - cbn [sg31] in *. destruct (absval64 0 0x4090000100000000 z BZ ltac:(lia)) as [_ H]; [lia|lia|]. assert (V : val f64 0x4090000100000000 = (1048577 / 1024)%R) by lit. rewrite V in H. lra. }
      apply Rabs_le_inv in XN. destruct b; [enough (n < 1076) by lia|enough (n < 1025) by lia]; apply lt_IZR; lra. }
    assert (HN : exists N, (if b then sneg 32 n else Some n) = Some N /\ -1075 <= N <= 1024 /\ val f64 tn = IZR N).
    { destruct b. - exists (- n). split; [|split; [lia|rewrite VT; cbn [sval]; now rewrite opp_IZR]]. unfold sneg, chk, in_i. change (32 - 1) with 31. rewrite (proj2 (Z.leb_le _ _)), (proj2 (Z.ltb_lt _ _)) by lia. reflexivity.
      - exists n. split; [reflexivity|]. split; [lia|exact VT]. }
    destruct HN as (N & -> & NR & VN). cbn [bind].
    assert (ZN : (Rabs (val f64 z - IZR N) <= 0.502)%R). { rewrite <- VN, VT, VZ. destruct b; cbn [sval]; [|exact XN]. replace (- X - - IZR n)%R with (- (X - IZR n))%R by ring. now rewrite Rabs_Ropp. }
    destruct (rd_sub f64 ltac:(cbn; lia) ph tn 1 F2 TF) as (P1 & P2 & P3).
    { rewrite VN. apply Rabs_le_inv in L, D, ZN. apply Rabs_le. lra. } { change 1%R with (bpow radix2 0). apply bpow_le. lia. } { change (/2)%R with (bpow radix2 (-1)). rewrite Rmult_1_r. unfold Rdiv. change (/2)%R with (bpow radix2 (-1)). rewrite <- bpow_plus. apply bpow_le. cbn. lia. }
    rewrite VN in P3. apply fin6_ok; try assumption. change (bpow radix2 (- pr f64)) with (/ 9007199254740992)%R in P3. apply Rabs_le_inv in L, D, ZN, P3. apply Rabs_le. lra.
  - unfold ssub, chk, in_i. rewrite Z.shiftr_div_pow2 by lia. assert (0 <= a / 2 ^ 20 < 2 ^ 11) by (split; [apply Z.div_pos; lia|apply Z.div_lt_upper_bound; lia]). change (32 - 1) with 31. rewrite (proj2 (Z.leb_le _ _)), (proj2 (Z.ltb_lt _ _)) by lia. cbn [andb bind].
    apply fin6_ok; try assumption; [|lia]. pose proof (Z.div_mod (a64 z) (2 ^ 32) ltac:(lia)) as DA. pose proof (Z.mod_pos_bound (a64 z) (2 ^ 32) ltac:(lia)) as MA. fold a in DA.
    destruct (absval64 0 0x3fe0000100000000 z BZ ltac:(lia)) as [_ H0]; [lia|lia|]. assert (V : val f64 0x3fe0000100000000 = (1048577 / 2097152)%R) by lit. rewrite V in H0. apply Rabs_le_inv in H0, D. apply Rabs_le. lra.
Qed.

Lemma powf3_tot s pl ph z j : isbits f32 pl -> finite f32 pl = true -> isbits f32 ph -> finite f32 ph = true -> isbits f32 z -> (Rabs (val f32 pl) <= 1 / 4)%R -> (Rabs (val f32 z - (val f32 pl + val f32 ph)) <= 0.01)%R ->
  j = to_i 32 z -> Z.land j 0x7fffffff <= 0x43160000 -> j <= 0x43000000 -> exists r, rs_powf_3 ph pl s j = Some r /\ isbits f32 r.
Proof.
  intros B1 F1 B2 F2 BZ L D Hj J1 J2. destruct (to_i_b32 z BZ) as [TI A]. pose proof (magz32 z BZ) as MZ. pose proof (fields_range f32 z) as [R1 R2]. change (2 ^ mw f32) with (2 ^ 23) in R1. change (2 ^ ew f32) with 256 in R2.
  set (a := a32 z) in *. set (E := expf f32 z) in *. set (m := sigf f32 z) in *. set (b := signbit f32 z) in *.
  assert (LJ : Z.land j 0x7fffffff = a). { rewrite Hj, TI. rewrite land31. symmetry. apply Z.mod_unique with (if b then -1 else 0); [left; lia|]. destruct b; cbn [sg31]; lia. }
  rewrite powf3_split. cbv zeta. rewrite LJ. rewrite LJ in J1. destruct (Z.ltb_spec 0x3f000000 a) as [C|C].
  - destruct (nint_code 23 127 b (E - 127) m a j ltac:(right; lia) ltac:(lia) R1 ltac:(lia) ltac:(lia)) as (_ & N1 & N2 & N3 & j' & k' & n & m' & N4 & N5 & _ & N6 & _ & N7 & N8 & N9 & HK & Hm' & EN & PN & RB & SJ).
    rewrite N1. cbn [bind]. rewrite N2. cbn [bind]. change 0x800000 with (2 ^ 23). rewrite N3. cbn [bind]. rewrite N4. cbn [bind]. rewrite N5. cbn [bind]. change 0x7fffff with (2 ^ 23 - 1). rewrite N6. cbn [bind]. rewrite N8. cbn [bind]. rewrite N9. cbn [bind]. rewrite SJ, N7.
    set (d := 2 ^ (23 - 1 - (E - 127))) in *. assert (DP : 0 < d) by (apply Z.pow_pos_nonneg; lia).
    assert (BD : (IZR d * bpow radix2 (E - 127 - 23) = / 2)%R). { unfold d. rewrite (IZR_Zpower radix2) by lia. rewrite <- bpow_plus. replace (23 - 1 - (E - 127) + (E - 127 - 23)) with (-1) by lia. reflexivity. }
    set (u := bpow radix2 (E - 127 - 23)) in *. assert (UP : (0 < u)%R) by apply bpow_gt_0.
    set (X := (IZR (2 ^ 23 + m) * u)%R).
    assert (VZ : val f32 z = sval b X). { unfold val, mag_of. fold E m b. rewrite (proj2 (Z.eqb_neq E 0)) by lia. reflexivity. }
    assert (XN : (Rabs (X - IZR n) <= 0.5)%R).
    { assert (L2 : (- IZR d <= IZR (2 ^ 23 + m) - IZR n * (2 * IZR d) <= IZR d)%R). { rewrite <- opp_IZR, <- mult_IZR, <- mult_IZR, <- minus_IZR. split; apply IZR_le; lia. }
      assert (E0 : (X - IZR n = (IZR (2 ^ 23 + m) - IZR n * (2 * IZR d)) * u)%R). { unfold X. replace (IZR n) with (IZR n * (2 * (IZR d * u)))%R at 1 by (rewrite BD; field). ring. }
      rewrite E0. set (e := (IZR (2 ^ 23 + m) - IZR n * (2 * IZR d))%R) in *. assert (Q1 : (- / 2 <= e * u <= / 2)%R) by (rewrite <- BD; split; nra). apply Rabs_le. lra. }
    set (tn := sg31 b + (k' + 127) * 2 ^ 23 + m').
    assert (ET : tn = mkbits f32 b (k' + 127) m'). { unfold tn, mkbits. change (mw f32 + ew f32) with 31. change (mw f32) with 23. destruct b; cbn [sg31]; lia. }
    destruct (valm f32 b (k' + 127) m') as (TB & TF & TV); [change (2 ^ ew f32) with 256; lia|exact Hm'|]. rewrite <- ET in TB, TF, TV.
    assert (VT : val f32 tn = sval b (IZR n)). { rewrite TV. f_equal. change (mw f32) with 23. change (bias f32) with 127. rewrite EN. rewrite mult_IZR. rewrite (IZR_Zpower radix2 (23 - k') ltac:(lia) : IZR (2 ^ (23 - k')) = _). rewrite Rmult_assoc, <- bpow_plus. replace (23 - k' + (k' + 127 - 127 - 23)) with 0 by lia. apply Rmult_1_r. }
    clearbody tn. assert (NB : (if b then n <= 150 else n <= 128)).
    { assert (K : (X <= if b then 150 else 128)%R).
      { assert (AV : Rabs (val f32 z) = X). { rewrite VZ. assert (0 <= X)%R by (unfold X; assert (0 <= IZR (2 ^ 23 + m))%R by (apply IZR_le; lia); nra). destruct b; unfold sval; [rewrite Rabs_Ropp|]; apply Rabs_pos_eq; assumption. }
        rewrite <- AV. destruct b.
        - destruct (absval32 0 0x43160000 z BZ ltac:(lia)) as [_ H]; [lia|lia|]. assert (V : val f32 0x43160000 = (150 / 1)%R) by lit. rewrite V in H. lra.
        - cbn [sg31] in *. destruct (absval32 0 0x43000000 z BZ ltac:(lia)) as [_ H]; [lia|lia|]. assert (V : val f32 0x43000000 = (128 / 1)%R) by lit. rewrite V in H. lra. }
      apply Rabs_le_inv in XN. destruct b; [enough (n < 151) by lia|enough (n < 129) by lia]; apply lt_IZR; lra. }
    assert (HN : exists N, (if b then sneg 32 n else Some n) = Some N /\ -150 <= N <= 128 /\ val f32 tn = IZR N).
    { destruct b. - exists (- n). split; [|split; [lia|rewrite VT; cbn [sval]; now rewrite opp_IZR]]. unfold sneg, chk, in_i. change (32 - 1) with 31. rewrite (proj2 (Z.leb_le _ _)), (proj2 (Z.ltb_lt _ _)) by lia. reflexivity.
      - exists n. split; [reflexivity|]. split; [lia|exact VT]. }
    destruct HN as (N & -> & NR & VN). cbn [bind].
    assert (ZN : (Rabs (val f32 z - IZR N) <= 0.5)%R). { rewrite <- VN, VT, VZ. destruct b; cbn [sval]; [|exact XN]. replace (- X - - IZR n)%R with (- (X - IZR n))%R by ring. now rewrite Rabs_Ropp. }
    destruct (rd_sub f32 ltac:(cbn; lia) ph tn 1 F2 TF) as (P1 & P2 & P3).
    { rewrite VN. apply Rabs_le_inv in L, D, ZN. apply Rabs_le. lra. } { change 1%R with (bpow radix2 0). apply bpow_le. lia. } { change (/2)%R with (bpow radix2 (-1)). rewrite Rmult_1_r. unfold Rdiv. change (/2)%R with (bpow radix2 (-1)). rewrite <- bpow_plus. apply bpow_le. cbn. lia. }
    rewrite VN in P3. apply fin3_ok; try assumption. change (bpow radix2 (- pr f32)) with (/ 16777216)%R in P3. apply Rabs_le_inv in L, D, ZN, P3. apply Rabs_le. lra.
  - unfold ssub, chk, in_i. rewrite Z.shiftr_div_pow2 by lia. assert (0 <= a / 2 ^ 23 < 2 ^ 8) by (split; [apply Z.div_pos; lia|apply Z.div_lt_upper_bound; lia]). change (32 - 1) with 31. rewrite (proj2 (Z.leb_le _ _)), (proj2 (Z.ltb_lt _ _)) by lia. cbn [andb bind].
    apply fin3_ok; try assumption; [|lia].
    destruct (absval32 0 0x3f000000 z BZ ltac:(lia)) as [_ H0]; [lia|lia|]. assert (V : val f32 0x3f000000 = (1 / 2)%R) by lit. rewrite V in H0. apply Rabs_le_inv in H0, D. apply Rabs_le. lra.
Qed.
