(** [pow]: the argument decomposition, and the function as a whole never panics. *)
From Coq Require Import ZArith Reals Lia Lra Bool List Psatz.
From Flocq Require Import Core.
From Verif Require Import Base Spec Format P_format Ieee P_ieee P_real P_neg P_key P_elem P_elem2 P_tot P_exp P_lit P_err P_dom P_apx P_ival P_ival2 P_cbrt3 P_red64b P_pow P_sym3 P_powt P_powt2 P_powt3 P_powt4 P_powt5 P_powt6 P_powt7 P_powt8 P_powt9 M_basic M_scalbn M_sqrt M_elib M_pow.
Open Scope Z_scope.
Local Opaque fadd fsub fmul fdiv of_int.

Lemma ok_mul F a b : OKo F (Some (fmul F a b)). Proof. eexists; split; [reflexivity|apply fmul_isbits]. Qed.
Lemma fx52 (a : Z) : (IZR a * bpow radix2 (-52) = IZR a / 4503599627370496)%R. Proof. reflexivity. Qed.
(** the distance of a number from one *)
Lemma ne1_64 a : 0x3fe0000000000000 <= a <= 0x4000000000000000 -> a <> 0x3ff0000000000000 -> (/ 9007199254740992 <= Rabs (val f64 a - 1))%R.
Proof.
  intros H N. destruct (pos64 a ltac:(lia)) as (B & A & S). destruct (Z_lt_le_dec a 0x3ff0000000000000) as [C|C].
  - pose proof (IN_pos64 0x3fe0000000000000 0x3fefffffffffffff a B S ltac:(lia) ltac:(lia) ltac:(lia)) as (_ & _ & I). cbn [fst snd] in I. assert (V : val f64 0x3fefffffffffffff = (9007199254740991 / 9007199254740992)%R) by lit. rewrite V in I. rewrite Rabs_left1; lra.
  - pose proof (IN_pos64 0x3ff0000000000001 0x4000000000000000 a B S ltac:(lia) ltac:(lia) ltac:(lia)) as (_ & _ & I). cbn [fst snd] in I. assert (V : val f64 0x3ff0000000000001 = (4503599627370497 / 4503599627370496)%R) by lit. rewrite V in I. rewrite Rabs_pos_eq; lra.
Qed.
Lemma pow5_tot y hy ix ax s : isbits f64 y -> finite f64 y = true -> (Rabs (val f64 y) <= bpow radix2 65)%R -> 0 <= ax < 0x7ff0000000000000 -> ax <> 0x3ff0000000000000 -> ix = ax / 2 ^ 32 -> OKo f64 (rs_pow_5 y hy ix ax s).
Proof.
  intros BY FY YB HA NA HI. unfold rs_pow_5. pose proof (Z.div_mod ax (2 ^ 32) ltac:(lia)) as DM. pose proof (Z.mod_pos_bound ax (2 ^ 32) ltac:(lia)) as MB. rewrite <- HI in DM.
  destruct (Z.ltb_spec ix 0x3fefffff) as [C|C]; [destruct (hy <? 0); apply ok_mul|]. destruct (Z.ltb_spec 0x3ff00000 ix) as [C2|C2]; [destruct (0 <? hy); apply ok_mul|].
  destruct (pos64 ax ltac:(lia)) as (B & A & S). pose proof (ne1_64 ax ltac:(lia) NA) as NE.
  pose proof (IN_pos64 0x3fefffff00000000 0x3ff0000100000000 ax B S ltac:(lia) ltac:(lia) ltac:(lia)) as (_ & FA & I). cbn [fst snd] in I.
  assert (V : val f64 0x3fefffff00000000 = (2097151 / 2097152)%R) by lit. assert (V2 : val f64 0x3ff0000100000000 = (1048577 / 1048576)%R) by lit. rewrite V, V2 in I.
  cbv zeta. eapply near64; [reflexivity|reflexivity|reflexivity|reflexivity|reflexivity|reflexivity|assumption|assumption|assumption|exact FA|]. split; [exact NE|]. apply Rabs_le. lra.
Qed.

(** the main path of [pow] once the argument is split into 2^n and a fraction, without the table accesses *)
Definition p3l (y s n bp dph dpl ax t_h : Z) : option Z :=
    let u_1 := ax -: bp in
    let v_1 := 0x3ff0000000000000 (* 1.0 *) /: (ax +: bp) in
    let ss := u_1 *: v_1 in
    let s_h := with_set_low_word ss 0 in
    let t_l := ax -: (t_h -: bp) in
    let s_l := v_1 *: ((u_1 -: (s_h *: t_h)) -: (s_h *: t_l)) in
    let s2 := ss *: ss in
    let r := (s2 *: s2) *: (rs_pow_L1 +: (s2 *: (rs_pow_L2 +: (s2 *: (rs_pow_L3 +: (s2 *: (rs_pow_L4 +: (s2 *: (rs_pow_L5 +: (s2 *: rs_pow_L6)))))))))) in
    let r := r +: (s_l *: (s_h +: ss)) in
    let s2_1 := s_h *: s_h in
    let t_h_1 := with_set_low_word ((0x4008000000000000 (* 3.0 *) +: s2_1) +: r) 0 in
    let t_l_1 := r -: ((t_h_1 -: 0x4008000000000000 (* 3.0 *)) -: s2_1) in
    let u_2 := s_h *: t_h_1 in
    let v_2 := (s_l *: t_h_1) +: (t_l_1 *: ss) in
    let p_h := with_set_low_word (u_2 +: v_2) 0 in
    let p_l := v_2 -: (p_h -: u_2) in
    let z_h := rs_pow_CP_H *: p_h in
    let z_l := ((rs_pow_CP_L *: p_h) +: (p_l *: rs_pow_CP)) +: dpl in
    let t_1 := of_int f64 n in
    let t1 := with_set_low_word (((z_h +: z_l) +: dph) +: t_1) 0 in
    let t2 := z_l -: (((t1 -: t_1) -: dph) -: z_h) in
    rs_pow_4 y t1 t2 s.
Definition p3t (y s n k_1 ix ax : Z) : option Z :=
    let ax := with_set_high_word ax (to_u 32 ix) in
    let* v32 := tab_get rs_pow_BP (to_u 64 k_1) in
    let u_1 := ax -: v32 in
    let* v33 := tab_get rs_pow_BP (to_u 64 k_1) in
    let v_1 := 0x3ff0000000000000 (* 1.0 *) /: (ax +: v33) in
    let ss := u_1 *: v_1 in
    let s_h := with_set_low_word ss 0 in
    let* v34 := uadd 32 (Z.lor (Z.shiftr (to_u 32 ix) 1) 0x20000000) 0x80000 in
    let* v35 := uadd 32 v34 (shlu 32 (to_u 32 k_1) 18) in
    let t_h := with_set_high_word 0 (* 0.0 *) v35 in
    let* v36 := tab_get rs_pow_BP (to_u 64 k_1) in
    let t_l := ax -: (t_h -: v36) in
    let s_l := v_1 *: ((u_1 -: (s_h *: t_h)) -: (s_h *: t_l)) in
    let s2 := ss *: ss in
    let r := (s2 *: s2) *: (rs_pow_L1 +: (s2 *: (rs_pow_L2 +: (s2 *: (rs_pow_L3 +: (s2 *: (rs_pow_L4 +: (s2 *: (rs_pow_L5 +: (s2 *: rs_pow_L6)))))))))) in
    let r := r +: (s_l *: (s_h +: ss)) in
    let s2_1 := s_h *: s_h in
    let t_h_1 := with_set_low_word ((0x4008000000000000 (* 3.0 *) +: s2_1) +: r) 0 in
    let t_l_1 := r -: ((t_h_1 -: 0x4008000000000000 (* 3.0 *)) -: s2_1) in
    let u_2 := s_h *: t_h_1 in
    let v_2 := (s_l *: t_h_1) +: (t_l_1 *: ss) in
    let p_h := with_set_low_word (u_2 +: v_2) 0 in
    let p_l := v_2 -: (p_h -: u_2) in
    let z_h := rs_pow_CP_H *: p_h in
    let* v37 := tab_get rs_pow_DP_L (to_u 64 k_1) in
    let z_l := ((rs_pow_CP_L *: p_h) +: (p_l *: rs_pow_CP)) +: v37 in
    let t_1 := of_int f64 n in
    let* v38 := tab_get rs_pow_DP_H (to_u 64 k_1) in
    let t1 := with_set_low_word (((z_h +: z_l) +: v38) +: t_1) 0 in
    let* v39 := tab_get rs_pow_DP_H (to_u 64 k_1) in
    let t2 := z_l -: (((t1 -: t_1) -: v39) -: z_h) in
    rs_pow_4 y t1 t2 s.
Lemma p3t_split y s n k ix ax : p3t y s n k ix ax = 
  let* bp := tab_get rs_pow_BP (to_u 64 k) in
  let* v34 := uadd 32 (Z.lor (Z.shiftr (to_u 32 ix) 1) 0x20000000) 0x80000 in
  let* v35 := uadd 32 v34 (shlu 32 (to_u 32 k) 18) in
  let* dpl := tab_get rs_pow_DP_L (to_u 64 k) in
  let* dph := tab_get rs_pow_DP_H (to_u 64 k) in
  p3l y s n bp dph dpl (with_set_high_word ax (to_u 32 ix)) (with_set_high_word 0 v35).
Proof.
  unfold p3t. destruct (tab_get rs_pow_BP (to_u 64 k)); [|reflexivity]. cbv beta iota delta [bind]. destruct (uadd 32 _ 0x80000); [|reflexivity]. destruct (uadd 32 _ _); [|reflexivity].
  destruct (tab_get rs_pow_DP_L (to_u 64 k)); [|reflexivity]. destruct (tab_get rs_pow_DP_H (to_u 64 k)); reflexivity.
Qed.
Lemma p3t_eq y s n k ix ax bp a b dpl dph : tab_get rs_pow_BP (to_u 64 k) = Some bp -> uadd 32 (Z.lor (Z.shiftr (to_u 32 ix) 1) 0x20000000) 0x80000 = Some a ->
  uadd 32 a (shlu 32 (to_u 32 k) 18) = Some b -> tab_get rs_pow_DP_L (to_u 64 k) = Some dpl -> tab_get rs_pow_DP_H (to_u 64 k) = Some dph ->
  p3t y s n k ix ax = p3l y s n bp dph dpl (with_set_high_word ax (to_u 32 ix)) (with_set_high_word 0 b).
Proof. intros H1 H2 H3 H4 H5. rewrite p3t_split, H1. cbn [bind]. rewrite H2. cbn [bind]. rewrite H3. cbn [bind]. rewrite H4. cbn [bind]. rewrite H5. reflexivity. Qed.
Lemma p3_split y hy ix iy ax s : rs_pow_3 y hy ix iy ax s = if 0x41e00000 <? iy then
    if 0x43f00000 <? iy then
      if ix <=? 0x3fefffff then
        if hy <? 0 then Some (rs_pow_HUGE *: rs_pow_HUGE)
        else Some (rs_pow_TINY *: rs_pow_TINY)
      else if 0x3ff00000 <=? ix then
        if 0 <? hy then Some (rs_pow_HUGE *: rs_pow_HUGE)
        else Some (rs_pow_TINY *: rs_pow_TINY)
      else rs_pow_5 y hy ix ax s
    else rs_pow_5 y hy ix ax s
  else 
    let n := 0 in
    let* (ax, n, ix) :=
      (if ix <? 0x100000 then
         let ax := ax *: rs_pow_TWO53 in
         let* n := ssub 32 n 53 in
         let ix := to_i 32 (get_high_word ax) in
         Some (ax, n, ix)
       else Some (ax, n, ix)) in
    let* v26 := ssub 32 (Z.shiftr ix 20) 1023 in
    let* n := sadd 32 n v26 in
    let j := Z.land ix 0xfffff in
    let ix := Z.lor j 0x3ff00000 in
    let* (k_1, n, ix) :=
      (if j <=? 0x3988e then
         let k_1 := 0 in
         Some (k_1, n, ix)
       else 
         let* (k_1, n, ix) :=
           (if j <? 0xbb67a then
              let k_1 := 1 in
              Some (k_1, n, ix)
            else 
              let k_1 := 0 in
              let* n := sadd 32 n 1 in
              let* ix := ssub 32 ix 0x100000 in
              Some (k_1, n, ix)) in
         Some (k_1, n, ix)) in
    p3t y s n k_1 ix ax.
Proof. reflexivity. Qed.
Lemma half_bd j : 0 <= j -> (IZR j / 2 - 1 <= IZR (j / 2) <= IZR j / 2)%R.
Proof. intros H. pose proof (Z.div_mod j 2 ltac:(lia)). pose proof (Z.mod_pos_bound j 2 ltac:(lia)). assert (A : (IZR j = 2 * IZR (j / 2) + IZR (j mod 2))%R) by (rewrite <- mult_IZR, <- plus_IZR; f_equal; lia). assert (0 <= IZR (j mod 2) <= 1)%R by (split; apply IZR_le; lia). lra. Qed.
Lemma shr1 a : Z.shiftr a 1 = a / 2. Proof. now rewrite Z.shiftr_div_pow2 by lia. Qed.
Lemma p3l_A y s ax th : isbits f64 y -> finite f64 y = true -> (Rabs (val f64 y) <= bpow radix2 64)%R -> isbits f64 ax -> finite f64 ax = true -> (0.866 <= val f64 ax <= 1.22478)%R -> (/ 9007199254740992 <= Rabs (val f64 ax - 1))%R ->
  isbits f64 th -> finite f64 th = true -> (Rabs (val f64 th - (val f64 ax + 1)) <= 4 / 1048576)%R -> OKo f64 (p3l y s 0 0x3ff0000000000000 0 0 ax th).
Proof. intros. unfold p3l. eapply plog64_A; [reflexivity|reflexivity|reflexivity|reflexivity|reflexivity|reflexivity|reflexivity|reflexivity|reflexivity|reflexivity|reflexivity|reflexivity|reflexivity|reflexivity|reflexivity|reflexivity|reflexivity|reflexivity|reflexivity|reflexivity|reflexivity|reflexivity|..]; assumption. Qed.
Lemma p3l_C y s n ax th : isbits f64 y -> finite f64 y = true -> (Rabs (val f64 y) <= bpow radix2 64)%R -> isbits f64 ax -> finite f64 ax = true -> (0.866 <= val f64 ax <= 1.22478)%R ->
  isbits f64 th -> finite f64 th = true -> (Rabs (val f64 th - (val f64 ax + 1)) <= 4 / 1048576)%R -> -2047 <= n <= 2047 /\ n <> 0 -> OKo f64 (p3l y s n 0x3ff0000000000000 0 0 ax th).
Proof. intros. unfold p3l. eapply plog64_C; [reflexivity|reflexivity|reflexivity|reflexivity|reflexivity|reflexivity|reflexivity|reflexivity|reflexivity|reflexivity|reflexivity|reflexivity|reflexivity|reflexivity|reflexivity|reflexivity|reflexivity|reflexivity|reflexivity|reflexivity|reflexivity|reflexivity|..]; assumption. Qed.
Lemma p3l_D y s n ax th : isbits f64 y -> finite f64 y = true -> (Rabs (val f64 y) <= bpow radix2 64)%R -> isbits f64 ax -> finite f64 ax = true -> (1.2247 <= val f64 ax <= 1.7321)%R ->
  isbits f64 th -> finite f64 th = true -> (Rabs (val f64 th - (val f64 ax + 1.5)) <= 4 / 1048576)%R -> -2047 <= n <= 2047 -> OKo f64 (p3l y s n 0x3ff8000000000000 0x3fe2b80340000000 0x3e4cfdeb43cfd006 ax th).
Proof. intros. unfold p3l. eapply plog64_D; [reflexivity|reflexivity|reflexivity|reflexivity|reflexivity|reflexivity|reflexivity|reflexivity|reflexivity|reflexivity|reflexivity|reflexivity|reflexivity|reflexivity|reflexivity|reflexivity|reflexivity|reflexivity|reflexivity|reflexivity|reflexivity|reflexivity|..]; assumption. Qed.

Local Opaque p3l p3t.
Lemma dec64_1 j lo : 0x0 <= j <= 0x3988e -> 0 <= lo < 2 ^ 32 ->
  let X := (0x3ff00000 + j) * 2 ^ 32 + lo in let th := (0x40000000 + j / 2) * 2 ^ 32 in isbits f64 X /\ finite f64 X = true /\ (0.866 <= val f64 X <= 1.22478)%R /\ isbits f64 th /\ finite f64 th = true /\ (Rabs (val f64 th - (val f64 X + 1)) <= 4 / 1048576)%R.
Proof.
  intros HJ LO X th. assert (H0 : 0 <= j / 2 < 0x80000) by (split; [apply Z.div_pos; lia|apply Z.div_lt_upper_bound; lia]).
  destruct (norm64 1023 (j * 2 ^ 32 + lo)) as (B1 & F1 & S1 & V1); [lia|lia|]. destruct (norm64 1024 ((0x0 + j / 2) * 2 ^ 32)) as (B2 & F2 & S2 & V2); [lia|lia|].
  replace (1023 * 2 ^ 52 + (j * 2 ^ 32 + lo)) with X in * by (unfold X; lia). replace (1024 * 2 ^ 52 + (0x0 + j / 2) * 2 ^ 32) with th in * by (unfold th; lia).
  assert (VX : (val f64 X = 1 + IZR j / 1048576 + IZR lo / 4503599627370496)%R).
  { rewrite V1. change (bpow radix2 (1023 - 1075)) with (/ 4503599627370496)%R. rewrite !plus_IZR, mult_IZR. change (IZR (2 ^ 52)) with 4503599627370496%R. change (IZR (2 ^ 32)) with 4294967296%R. field. }
  assert (VT : (val f64 th = 2 + IZR (j / 2) / 524288)%R).
  { rewrite V2. change (bpow radix2 (1024 - 1075)) with (/ 2251799813685248)%R. rewrite plus_IZR, mult_IZR, plus_IZR. change (IZR (2 ^ 52)) with 4503599627370496%R. change (IZR (2 ^ 32)) with 4294967296%R. field. }
  pose proof (half_bd j ltac:(lia)) as HB. assert (RJ : (0 <= IZR j <= 235662)%R) by (split; apply IZR_le; lia). assert (RL : (0 <= IZR lo <= 4294967295)%R) by (split; apply IZR_le; lia).
  split; [exact B1|]. split; [exact F1|]. split; [rewrite VX; lra|]. split; [exact B2|]. split; [exact F2|]. rewrite VX, VT. apply Rabs_le. lra.
Qed.
Lemma p3t_1e y s n j ax : 0x0 <= j <= 0x3988e -> p3t y s n 0 (0x3ff00000 + j) ax = p3l y s n 0x3ff0000000000000 0 0 ((0x3ff00000 + j) * 2 ^ 32 + ax mod 2 ^ 32) ((0x40000000 + j / 2) * 2 ^ 32).
Proof.
  intros HJ. assert (U : to_u 32 (0x3ff00000 + j) = 0x3ff00000 + j) by (apply Z.mod_small; lia).
  assert (H0 : 0 <= j / 2 < 0x80000) by (split; [apply Z.div_pos; lia|apply Z.div_lt_upper_bound; lia]).
  assert (T : Z.lor (Z.shiftr (0x3ff00000 + j) 1) 0x20000000 = 0x3ff80000 + j / 2).
  { rewrite shr1. replace (0x3ff00000 + j) with (j + 0x1ff80000 * 2) by lia. rewrite Z.div_add by lia. change 0x20000000 with (1 * 2 ^ 29). rewrite Z.lor_comm, lor_disjoint by lia. lia. }
  rewrite (p3t_eq y s n 0 (0x3ff00000 + j) ax 0x3ff0000000000000 (0x3ff80000 + j / 2 + 0x80000) (0x3ff80000 + j / 2 + 0x80000 + 0) 0 0); [|reflexivity| | |reflexivity|reflexivity].
  - rewrite U, !wshi by lia. change (0 mod 2 ^ 32) with 0. f_equal; lia.
  - rewrite U, T. apply uadd_ok; lia.
  - change (shlu 32 (to_u 32 0) 18) with 0. apply uadd_ok; lia.
Qed.
Lemma p3t_1 y s n j ax : isbits f64 y -> finite f64 y = true -> (Rabs (val f64 y) <= bpow radix2 64)%R -> 0x0 <= j <= 0x3988e -> -2047 <= n <= 2047 -> (n = 0 -> j = 0 -> ax mod 2 ^ 32 <> 0) -> OKo f64 (p3t y s n 0 (0x3ff00000 + j) ax).
Proof.
  intros BY FY YB HJ HN NZ. rewrite p3t_1e by assumption. pose proof (Z.mod_pos_bound ax (2 ^ 32) ltac:(lia)) as LO. set (lo := ax mod 2 ^ 32) in *.
  destruct (dec64_1 j lo HJ LO) as (B1 & F1 & RX & B2 & F2 & RT). set (X := (0x3ff00000 + j) * 2 ^ 32 + lo) in *. set (th := (0x40000000 + j / 2) * 2 ^ 32) in *.
  destruct (Z.eq_dec n 0) as [N|N].
  - subst n. apply p3l_A; try assumption. apply ne1_64; [unfold X; lia|]. intros K. unfold X in K. specialize (NZ eq_refl). lia.
  - apply p3l_C; try assumption. lia.
Qed.

Lemma dec64_2 j lo : 0x3988f <= j <= 0xbb679 -> 0 <= lo < 2 ^ 32 ->
  let X := (0x3ff00000 + j) * 2 ^ 32 + lo in let th := (0x40040000 + j / 2) * 2 ^ 32 in isbits f64 X /\ finite f64 X = true /\ (1.2247 <= val f64 X <= 1.7321)%R /\ isbits f64 th /\ finite f64 th = true /\ (Rabs (val f64 th - (val f64 X + 1.5)) <= 4 / 1048576)%R.
Proof.
  intros HJ LO X th. assert (H0 : 0 <= j / 2 < 0x80000) by (split; [apply Z.div_pos; lia|apply Z.div_lt_upper_bound; lia]).
  destruct (norm64 1023 (j * 2 ^ 32 + lo)) as (B1 & F1 & S1 & V1); [lia|lia|]. destruct (norm64 1024 ((0x40000 + j / 2) * 2 ^ 32)) as (B2 & F2 & S2 & V2); [lia|lia|].
  replace (1023 * 2 ^ 52 + (j * 2 ^ 32 + lo)) with X in * by (unfold X; lia). replace (1024 * 2 ^ 52 + (0x40000 + j / 2) * 2 ^ 32) with th in * by (unfold th; lia).
  assert (VX : (val f64 X = 1 + IZR j / 1048576 + IZR lo / 4503599627370496)%R).
  { rewrite V1. change (bpow radix2 (1023 - 1075)) with (/ 4503599627370496)%R. rewrite !plus_IZR, mult_IZR. change (IZR (2 ^ 52)) with 4503599627370496%R. change (IZR (2 ^ 32)) with 4294967296%R. field. }
  assert (VT : (val f64 th = 5 / 2 + IZR (j / 2) / 524288)%R).
  { rewrite V2. change (bpow radix2 (1024 - 1075)) with (/ 2251799813685248)%R. rewrite plus_IZR, mult_IZR, plus_IZR. change (IZR (2 ^ 52)) with 4503599627370496%R. change (IZR (2 ^ 32)) with 4294967296%R. field. }
  pose proof (half_bd j ltac:(lia)) as HB. assert (RJ : (235663 <= IZR j <= 767609)%R) by (split; apply IZR_le; lia). assert (RL : (0 <= IZR lo <= 4294967295)%R) by (split; apply IZR_le; lia).
  split; [exact B1|]. split; [exact F1|]. split; [rewrite VX; lra|]. split; [exact B2|]. split; [exact F2|]. rewrite VX, VT. apply Rabs_le. lra.
Qed.
Lemma p3t_2e y s n j ax : 0x3988f <= j <= 0xbb679 -> p3t y s n 1 (0x3ff00000 + j) ax = p3l y s n 0x3ff8000000000000 0x3fe2b80340000000 0x3e4cfdeb43cfd006 ((0x3ff00000 + j) * 2 ^ 32 + ax mod 2 ^ 32) ((0x40040000 + j / 2) * 2 ^ 32).
Proof.
  intros HJ. assert (U : to_u 32 (0x3ff00000 + j) = 0x3ff00000 + j) by (apply Z.mod_small; lia).
  assert (H0 : 0 <= j / 2 < 0x80000) by (split; [apply Z.div_pos; lia|apply Z.div_lt_upper_bound; lia]).
  assert (T : Z.lor (Z.shiftr (0x3ff00000 + j) 1) 0x20000000 = 0x3ff80000 + j / 2).
  { rewrite shr1. replace (0x3ff00000 + j) with (j + 0x1ff80000 * 2) by lia. rewrite Z.div_add by lia. change 0x20000000 with (1 * 2 ^ 29). rewrite Z.lor_comm, lor_disjoint by lia. lia. }
  rewrite (p3t_eq y s n 1 (0x3ff00000 + j) ax 0x3ff8000000000000 (0x3ff80000 + j / 2 + 0x80000) (0x3ff80000 + j / 2 + 0x80000 + 0x40000) 0x3e4cfdeb43cfd006 0x3fe2b80340000000); [|reflexivity| | |reflexivity|reflexivity].
  - rewrite U, !wshi by lia. change (0 mod 2 ^ 32) with 0. f_equal; lia.
  - rewrite U, T. apply uadd_ok; lia.
  - change (shlu 32 (to_u 32 1) 18) with 0x40000. apply uadd_ok; lia.
Qed.
Lemma p3t_2 y s n j ax : isbits f64 y -> finite f64 y = true -> (Rabs (val f64 y) <= bpow radix2 64)%R -> 0x3988f <= j <= 0xbb679 -> -2047 <= n <= 2047 -> OKo f64 (p3t y s n 1 (0x3ff00000 + j) ax).
Proof.
  intros BY FY YB HJ HN . rewrite p3t_2e by assumption. pose proof (Z.mod_pos_bound ax (2 ^ 32) ltac:(lia)) as LO. set (lo := ax mod 2 ^ 32) in *.
  destruct (dec64_2 j lo HJ LO) as (B1 & F1 & RX & B2 & F2 & RT). set (X := (0x3ff00000 + j) * 2 ^ 32 + lo) in *. set (th := (0x40040000 + j / 2) * 2 ^ 32) in *.
  apply p3l_D; assumption.
Qed.

Lemma dec64_3 j lo : 0xbb67a <= j <= 0xfffff -> 0 <= lo < 2 ^ 32 ->
  let X := (0x3fe00000 + j) * 2 ^ 32 + lo in let th := (0x3ff80000 + j / 2) * 2 ^ 32 in isbits f64 X /\ finite f64 X = true /\ (0.866 <= val f64 X <= 1.22478)%R /\ isbits f64 th /\ finite f64 th = true /\ (Rabs (val f64 th - (val f64 X + 1)) <= 4 / 1048576)%R.
Proof.
  intros HJ LO X th. assert (H0 : 0 <= j / 2 < 0x80000) by (split; [apply Z.div_pos; lia|apply Z.div_lt_upper_bound; lia]).
  destruct (norm64 1022 (j * 2 ^ 32 + lo)) as (B1 & F1 & S1 & V1); [lia|lia|]. destruct (norm64 1023 ((0x80000 + j / 2) * 2 ^ 32)) as (B2 & F2 & S2 & V2); [lia|lia|].
  replace (1022 * 2 ^ 52 + (j * 2 ^ 32 + lo)) with X in * by (unfold X; lia). replace (1023 * 2 ^ 52 + (0x80000 + j / 2) * 2 ^ 32) with th in * by (unfold th; lia).
  assert (VX : (val f64 X = 1 / 2 + IZR j / 2097152 + IZR lo / 9007199254740992)%R).
  { rewrite V1. change (bpow radix2 (1022 - 1075)) with (/ 9007199254740992)%R. rewrite !plus_IZR, mult_IZR. change (IZR (2 ^ 52)) with 4503599627370496%R. change (IZR (2 ^ 32)) with 4294967296%R. field. }
  assert (VT : (val f64 th = 3 / 2 + IZR (j / 2) / 1048576)%R).
  { rewrite V2. change (bpow radix2 (1023 - 1075)) with (/ 4503599627370496)%R. rewrite plus_IZR, mult_IZR, plus_IZR. change (IZR (2 ^ 52)) with 4503599627370496%R. change (IZR (2 ^ 32)) with 4294967296%R. field. }
  pose proof (half_bd j ltac:(lia)) as HB. assert (RJ : (767610 <= IZR j <= 1048575)%R) by (split; apply IZR_le; lia). assert (RL : (0 <= IZR lo <= 4294967295)%R) by (split; apply IZR_le; lia).
  split; [exact B1|]. split; [exact F1|]. split; [rewrite VX; lra|]. split; [exact B2|]. split; [exact F2|]. rewrite VX, VT. apply Rabs_le. lra.
Qed.
Lemma p3t_3e y s n j ax : 0xbb67a <= j <= 0xfffff -> p3t y s n 0 (0x3fe00000 + j) ax = p3l y s n 0x3ff0000000000000 0 0 ((0x3fe00000 + j) * 2 ^ 32 + ax mod 2 ^ 32) ((0x3ff80000 + j / 2) * 2 ^ 32).
Proof.
  intros HJ. assert (U : to_u 32 (0x3fe00000 + j) = 0x3fe00000 + j) by (apply Z.mod_small; lia).
  assert (H0 : 0 <= j / 2 < 0x80000) by (split; [apply Z.div_pos; lia|apply Z.div_lt_upper_bound; lia]).
  assert (T : Z.lor (Z.shiftr (0x3fe00000 + j) 1) 0x20000000 = 0x3ff00000 + j / 2).
  { rewrite shr1. replace (0x3fe00000 + j) with (j + 0x1ff00000 * 2) by lia. rewrite Z.div_add by lia. change 0x20000000 with (1 * 2 ^ 29). rewrite Z.lor_comm, lor_disjoint by lia. lia. }
  rewrite (p3t_eq y s n 0 (0x3fe00000 + j) ax 0x3ff0000000000000 (0x3ff00000 + j / 2 + 0x80000) (0x3ff00000 + j / 2 + 0x80000 + 0) 0 0); [|reflexivity| | |reflexivity|reflexivity].
  - rewrite U, !wshi by lia. change (0 mod 2 ^ 32) with 0. f_equal; lia.
  - rewrite U, T. apply uadd_ok; lia.
  - change (shlu 32 (to_u 32 0) 18) with 0. apply uadd_ok; lia.
Qed.
Lemma p3t_3 y s n j ax : isbits f64 y -> finite f64 y = true -> (Rabs (val f64 y) <= bpow radix2 64)%R -> 0xbb67a <= j <= 0xfffff -> -2047 <= n <= 2047 -> OKo f64 (p3t y s n 0 (0x3fe00000 + j) ax).
Proof.
  intros BY FY YB HJ HN . rewrite p3t_3e by assumption. pose proof (Z.mod_pos_bound ax (2 ^ 32) ltac:(lia)) as LO. set (lo := ax mod 2 ^ 32) in *.
  destruct (dec64_3 j lo HJ LO) as (B1 & F1 & RX & B2 & F2 & RT). set (X := (0x3fe00000 + j) * 2 ^ 32 + lo) in *. set (th := (0x3ff80000 + j / 2) * 2 ^ 32) in *.
  destruct (Z.eq_dec n 0) as [N|N].
  - subst n. apply p3l_A; try assumption. apply ne1_64; unfold X; lia.
  - apply p3l_C; try assumption. lia.
Qed.
