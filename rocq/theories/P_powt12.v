(** [powf]: the argument decomposition, and the function as a whole never panics. *)
From Coq Require Import ZArith Reals Lia Lra Bool List Psatz.
From Flocq Require Import Core.
From Verif Require Import Base Spec Format P_format Ieee P_ieee P_real P_neg P_key P_elem P_elem2 P_tot P_exp P_lit P_err P_dom P_apx P_ival P_ival2 P_cbrt3 P_red64b P_pow P_sym3 P_powt P_powt2 P_powt3 P_powt4 P_powt5 P_powt6 P_powt7 P_powt8 P_powt9 P_powt10 P_powt11 M_basic M_scalbn M_sqrt M_elib M_pow SpecFun SpecElem SpecPow Prop_pow.
Open Scope Z_scope.
Local Opaque fadd fsub fmul fdiv of_int rs_powf_2.

Lemma norm32 E m : 1 <= E <= 254 -> 0 <= m < 2 ^ 23 -> isbits f32 (E * 2 ^ 23 + m) /\ finite f32 (E * 2 ^ 23 + m) = true /\ signbit f32 (E * 2 ^ 23 + m) = false /\ val f32 (E * 2 ^ 23 + m) = (IZR (2 ^ 23 + m) * bpow radix2 (E - 150))%R.
Proof.
  intros HE Hm. assert (Q : E * 2 ^ 23 + m = mkbits f32 false E m) by reflexivity. rewrite Q.
  assert (A1 : 0 <= E < 2 ^ ew f32) by (change (2 ^ ew f32) with 256; lia). assert (A2 : 0 <= m < 2 ^ mw f32) by exact Hm.
  destruct (mkbits_fields f32 false E m A1 A2) as (S1 & S2 & S3). split; [now apply mkbits_range|]. unfold finite, val. rewrite S1, S2, S3. split; [apply Z.ltb_lt; change (2 ^ ew f32) with 256; lia|]. split; [reflexivity|].
  unfold mag_of. rewrite (proj2 (Z.eqb_neq E 0)) by lia. cbn [sval]. change (bias f32) with 127. change (mw f32) with 23. replace (E - 127 - 23) with (E - 150) by lia. reflexivity.
Qed.
Lemma ne1_32 a : 0x3f000000 <= a <= 0x40000000 -> a <> 0x3f800000 -> (/ 16777216 <= Rabs (val f32 a - 1))%R.
Proof.
  intros H N. destruct (pos32 a ltac:(lia)) as (B & A & S). destruct (Z_lt_le_dec a 0x3f800000) as [C|C].
  - pose proof (IN_pos32 0x3f000000 0x3f7fffff a B S ltac:(lia) ltac:(lia) ltac:(lia)) as (_ & _ & I). cbn [fst snd] in I. assert (V : val f32 0x3f7fffff = (16777215 / 16777216)%R) by lit. rewrite V in I. rewrite Rabs_left1; lra.
  - pose proof (IN_pos32 0x3f800001 0x40000000 a B S ltac:(lia) ltac:(lia) ltac:(lia)) as (_ & _ & I). cbn [fst snd] in I. assert (V : val f32 0x3f800001 = (8388609 / 8388608)%R) by lit. rewrite V in I. rewrite Rabs_pos_eq; lra.
Qed.
Lemma land12 a : 0 <= a < 2 ^ 32 -> Z.land a 0xfffff000 = a / 4096 * 4096.
Proof. intros H. transitivity (a - a mod 2 ^ 12). { exact (land_unot_low 32 a 12 ltac:(lia) H). } change (2 ^ 12) with 4096. pose proof (Z.div_mod a 4096). lia. Qed.
Lemma to_u_i a : 0 <= a < 2 ^ 31 -> to_u 32 (to_i 32 a) = a.
Proof. intros H. unfold to_i. cbv zeta. rewrite Z.mod_small by lia. zdec. unfold to_u. rewrite Z.mod_small; lia. Qed.
Lemma eig_bd j : 0 <= j -> (IZR j / 8192 - 1 <= IZR (j / 8192) <= IZR j / 8192)%R.
Proof. intros H. pose proof (Z.div_mod j 8192 ltac:(lia)). pose proof (Z.mod_pos_bound j 8192 ltac:(lia)). assert (A : (IZR j = 8192 * IZR (j / 8192) + IZR (j mod 8192))%R) by (rewrite <- mult_IZR, <- plus_IZR; f_equal; lia). assert (0 <= IZR (j mod 8192) <= 8191)%R by (split; apply IZR_le; lia). lra. Qed.

(** the main path of [powf] once the argument is split into 2^n and a fraction, without the table accesses *)
Definition f3l (y sn n bp dph dpl ax t_h : Z) : option Z :=
    let u := ax -' bp in
    let v := 0x3f800000 (* 1.0 *) /' (ax +' bp) in
    let s := u *' v in
    let s_h := s in
    let is := to_i 32 s_h in
    let s_h := Z.land (to_u 32 is) 0xfffff000 in
    let t_l := ax -' (t_h -' bp) in
    let s_l := v *' ((u -' (s_h *' t_h)) -' (s_h *' t_l)) in
    let s2 := s *' s in
    let r := (s2 *' s2) *' (rs_powf_L1 +' (s2 *' (rs_powf_L2 +' (s2 *' (rs_powf_L3 +' (s2 *' (rs_powf_L4 +' (s2 *' (rs_powf_L5 +' (s2 *' rs_powf_L6)))))))))) in
    let r := r +' (s_l *' (s_h +' s)) in
    let s2 := s_h *' s_h in
    let t_h := (0x40400000 (* 3.0 *) +' s2) +' r in
    let is := to_i 32 t_h in
    let t_h := Z.land (to_u 32 is) 0xfffff000 in
    let t_l := r -' ((t_h -' 0x40400000 (* 3.0 *)) -' s2) in
    let u := s_h *' t_h in
    let v := (s_l *' t_h) +' (t_l *' s) in
    let p_h := u +' v in
    let is := to_i 32 p_h in
    let p_h := Z.land (to_u 32 is) 0xfffff000 in
    let p_l := v -' (p_h -' u) in
    let z_h := rs_powf_CP_H *' p_h in
    let z_l := ((rs_powf_CP_L *' p_h) +' (p_l *' rs_powf_CP)) +' dpl in
    let t := of_int f32 n in
    let t1 := ((z_h +' z_l) +' dph) +' t in
    let is := to_i 32 t1 in
    let t1 := Z.land (to_u 32 is) 0xfffff000 in
    let t2 := z_l -' (((t1 -' t) -' dph) -' z_h) in
    rs_powf_2 y t1 t2 sn.
Definition f3t (y sn n k ix : Z) : option Z :=
    let ax := to_u 32 ix in
    let* v21 := tab_get rs_powf_BP (to_u 64 k) in
    let u := ax -' v21 in
    let* v22 := tab_get rs_powf_BP (to_u 64 k) in
    let v := 0x3f800000 (* 1.0 *) /' (ax +' v22) in
    let s := u *' v in
    let s_h := s in
    let is := to_i 32 s_h in
    let s_h := Z.land (to_u 32 is) 0xfffff000 in
    let is := to_i 32 (Z.lor (Z.land (Z.shiftr (to_u 32 ix) 1) 0xfffff000) 0x20000000) in
    let* v23 := uadd 32 (to_u 32 is) 0x400000 in
    let* t_h := uadd 32 v23 (shlu 32 (to_u 32 k) 21) in
    let* v25 := tab_get rs_powf_BP (to_u 64 k) in
    let t_l := ax -' (t_h -' v25) in
    let s_l := v *' ((u -' (s_h *' t_h)) -' (s_h *' t_l)) in
    let s2 := s *' s in
    let r := (s2 *' s2) *' (rs_powf_L1 +' (s2 *' (rs_powf_L2 +' (s2 *' (rs_powf_L3 +' (s2 *' (rs_powf_L4 +' (s2 *' (rs_powf_L5 +' (s2 *' rs_powf_L6)))))))))) in
    let r := r +' (s_l *' (s_h +' s)) in
    let s2 := s_h *' s_h in
    let t_h := (0x40400000 (* 3.0 *) +' s2) +' r in
    let is := to_i 32 t_h in
    let t_h := Z.land (to_u 32 is) 0xfffff000 in
    let t_l := r -' ((t_h -' 0x40400000 (* 3.0 *)) -' s2) in
    let u := s_h *' t_h in
    let v := (s_l *' t_h) +' (t_l *' s) in
    let p_h := u +' v in
    let is := to_i 32 p_h in
    let p_h := Z.land (to_u 32 is) 0xfffff000 in
    let p_l := v -' (p_h -' u) in
    let z_h := rs_powf_CP_H *' p_h in
    let* v26 := tab_get rs_powf_DP_L (to_u 64 k) in
    let z_l := ((rs_powf_CP_L *' p_h) +' (p_l *' rs_powf_CP)) +' v26 in
    let t := of_int f32 n in
    let* v27 := tab_get rs_powf_DP_H (to_u 64 k) in
    let t1 := ((z_h +' z_l) +' v27) +' t in
    let is := to_i 32 t1 in
    let t1 := Z.land (to_u 32 is) 0xfffff000 in
    let* v28 := tab_get rs_powf_DP_H (to_u 64 k) in
    let t2 := z_l -' (((t1 -' t) -' v28) -' z_h) in
    rs_powf_2 y t1 t2 sn.
Lemma f3t_split y s n k ix : f3t y s n k ix = 
  let* bp := tab_get rs_powf_BP (to_u 64 k) in
  let* v34 := uadd 32 (to_u 32 (to_i 32 (Z.lor (Z.land (Z.shiftr (to_u 32 ix) 1) 0xfffff000) 0x20000000))) 0x400000 in
  let* v35 := uadd 32 v34 (shlu 32 (to_u 32 k) 21) in
  let* dpl := tab_get rs_powf_DP_L (to_u 64 k) in
  let* dph := tab_get rs_powf_DP_H (to_u 64 k) in
  f3l y s n bp dph dpl (to_u 32 ix) v35.
Proof.
  unfold f3t. destruct (tab_get rs_powf_BP (to_u 64 k)); [|reflexivity]. cbv beta iota delta [bind]. destruct (uadd 32 _ 0x400000); [|reflexivity]. destruct (uadd 32 _ _); [|reflexivity].
  destruct (tab_get rs_powf_DP_L (to_u 64 k)); [|reflexivity]. destruct (tab_get rs_powf_DP_H (to_u 64 k)); reflexivity.
Qed.
Lemma f3t_eq y s n k ix bp a b dpl dph : tab_get rs_powf_BP (to_u 64 k) = Some bp -> uadd 32 (to_u 32 (to_i 32 (Z.lor (Z.land (Z.shiftr (to_u 32 ix) 1) 0xfffff000) 0x20000000))) 0x400000 = Some a ->
  uadd 32 a (shlu 32 (to_u 32 k) 21) = Some b -> tab_get rs_powf_DP_L (to_u 64 k) = Some dpl -> tab_get rs_powf_DP_H (to_u 64 k) = Some dph ->
  f3t y s n k ix = f3l y s n bp dph dpl (to_u 32 ix) b.
Proof. intros H1 H2 H3 H4 H5. rewrite f3t_split, H1. cbn [bind]. rewrite H2. cbn [bind]. rewrite H3. cbn [bind]. rewrite H4. cbn [bind]. rewrite H5. reflexivity. Qed.
Definition f3m (y sn n ix : Z) : option Z :=
    let* v15 := ssub 32 (Z.shiftr ix 23) 127 in
    let* n := sadd 32 n v15 in
    let j := Z.land ix 0x7fffff in
    let ix := Z.lor j 0x3f800000 in
    let* (k, n, ix) :=
      (if j <=? 0x1cc471 then
         let k := 0 in
         Some (k, n, ix)
       else 
         let* (k, n, ix) :=
           (if j <? 0x5db3d7 then
              let k := 1 in
              Some (k, n, ix)
            else 
              let k := 0 in
              let* n := sadd 32 n 1 in
              let* ix := ssub 32 ix 0x800000 in
              Some (k, n, ix)) in
         Some (k, n, ix)) in
    f3t y sn n k ix.
Lemma f3_split y ax sn hy ix iy : rs_powf_1 y ax sn hy ix iy =
  if 0x4d000000 <? iy then
    if ix <? 0x3f7ffff8 then
      if hy <? 0 then Some ((sn *' rs_powf_HUGE) *' rs_powf_HUGE)
      else Some ((sn *' rs_powf_TINY) *' rs_powf_TINY)
    else if 0x3f800007 <? ix then
      if 0 <? hy then Some ((sn *' rs_powf_HUGE) *' rs_powf_HUGE)
      else Some ((sn *' rs_powf_TINY) *' rs_powf_TINY)
    else 
      let t := ax -' 0x3f800000 (* 1.0 *) in
      let w := (t *' t) *' (0x3f000000 (* 0.5 *) -' (t *' (0x3eaaaaab (* 0.333333333333 *) -' (t *' 0x3e800000 (* 0.25 *))))) in
      let u := rs_powf_IVLN2_H *' t in
      let v := (t *' rs_powf_IVLN2_L) -' (w *' rs_powf_IVLN2) in
      let t1 := u +' v in
      let is := to_i 32 t1 in
      let t1 := Z.land (to_u 32 is) 0xfffff000 in
      let t2 := v -' (t1 -' u) in
      rs_powf_2 y t1 t2 sn
  else
    let* (n, ix) :=
      (if ix <? 0x800000 then
         let* n := ssub 32 0 24 in
         Some (n, to_i 32 (ax *' rs_powf_TWO24))
       else Some (0, ix)) in f3m y sn n ix.
Proof. reflexivity. Qed.
Lemma f3l_A y s ax th : isbits f32 y -> finite f32 y = true -> (Rabs (val f32 y) <= bpow radix2 64)%R -> isbits f32 ax -> finite f32 ax = true -> (0.866 <= val f32 ax <= 1.22478)%R -> (/ 16777216 <= Rabs (val f32 ax - 1))%R ->
  isbits f32 th -> finite f32 th = true -> (Rabs (val f32 th - (val f32 ax + 1)) <= 2050 / 1048576)%R -> OKo f32 (f3l y s 0 0x3f800000 0 0 ax th).
Proof. intros. unfold f3l. eapply plog32_A; [reflexivity|reflexivity|reflexivity|reflexivity|reflexivity|reflexivity|reflexivity|reflexivity|reflexivity|reflexivity|reflexivity|reflexivity|reflexivity|reflexivity|reflexivity|reflexivity|reflexivity|reflexivity|reflexivity|reflexivity|reflexivity|reflexivity|..]; assumption. Qed.
Lemma f3l_C y s n ax th : isbits f32 y -> finite f32 y = true -> (Rabs (val f32 y) <= bpow radix2 64)%R -> isbits f32 ax -> finite f32 ax = true -> (0.866 <= val f32 ax <= 1.22478)%R ->
  isbits f32 th -> finite f32 th = true -> (Rabs (val f32 th - (val f32 ax + 1)) <= 2050 / 1048576)%R -> -2047 <= n <= 2047 /\ n <> 0 -> OKo f32 (f3l y s n 0x3f800000 0 0 ax th).
Proof. intros. unfold f3l. eapply plog32_C; [reflexivity|reflexivity|reflexivity|reflexivity|reflexivity|reflexivity|reflexivity|reflexivity|reflexivity|reflexivity|reflexivity|reflexivity|reflexivity|reflexivity|reflexivity|reflexivity|reflexivity|reflexivity|reflexivity|reflexivity|reflexivity|reflexivity|..]; assumption. Qed.
Lemma f3l_D y s n ax th : isbits f32 y -> finite f32 y = true -> (Rabs (val f32 y) <= bpow radix2 64)%R -> isbits f32 ax -> finite f32 ax = true -> (1.2247 <= val f32 ax <= 1.7321)%R ->
  isbits f32 th -> finite f32 th = true -> (Rabs (val f32 th - (val f32 ax + 1.5)) <= 2050 / 1048576)%R -> -2047 <= n <= 2047 -> OKo f32 (f3l y s n 0x3fc00000 0x3f15c000 0x35d1cfdc ax th).
Proof. intros. unfold f3l. eapply plog32_D; [reflexivity|reflexivity|reflexivity|reflexivity|reflexivity|reflexivity|reflexivity|reflexivity|reflexivity|reflexivity|reflexivity|reflexivity|reflexivity|reflexivity|reflexivity|reflexivity|reflexivity|reflexivity|reflexivity|reflexivity|reflexivity|reflexivity|..]; assumption. Qed.
Local Opaque f3l f3t.

Lemma dec32_1 j : 0x0 <= j <= 0x1cc471 ->
  let X := 0x3f800000 + j in let th := 0x40000000 + j / 8192 * 4096 in isbits f32 X /\ finite f32 X = true /\ (0.866 <= val f32 X <= 1.22478)%R /\ isbits f32 th /\ finite f32 th = true /\ (Rabs (val f32 th - (val f32 X + 1)) <= 2050 / 1048576)%R.
Proof.
  intros HJ X th. assert (H0 : 0 <= j / 8192 < 0x400) by (split; [apply Z.div_pos; lia|apply Z.div_lt_upper_bound; lia]).
  destruct (norm32 127 j) as (B1 & F1 & S1 & V1); [lia|lia|]. destruct (norm32 128 (0x0 + j / 8192 * 4096)) as (B2 & F2 & S2 & V2); [lia|lia|].
  replace (127 * 2 ^ 23 + j) with X in * by (unfold X; lia). replace (128 * 2 ^ 23 + (0x0 + j / 8192 * 4096)) with th in * by (unfold th; lia).
  assert (VX : (val f32 X = 1 + IZR j / 8388608)%R).
  { rewrite V1. change (bpow radix2 (127 - 150)) with (/ 8388608)%R. rewrite !plus_IZR. change (IZR (2 ^ 23)) with 8388608%R. field. }
  assert (VT : (val f32 th = 2 + IZR (j / 8192) * 4096 / 4194304)%R).
  { rewrite V2. change (bpow radix2 (128 - 150)) with (/ 4194304)%R. rewrite !plus_IZR, mult_IZR. change (IZR (2 ^ 23)) with 8388608%R. field. }
  pose proof (eig_bd j ltac:(lia)) as HB. assert (RJ : (0 <= IZR j <= 1885297)%R) by (split; apply IZR_le; lia).
  split; [exact B1|]. split; [exact F1|]. split; [rewrite VX; lra|]. split; [exact B2|]. split; [exact F2|]. rewrite VX, VT. apply Rabs_le. lra.
Qed.
Lemma f3t_1e y s n j : 0x0 <= j <= 0x1cc471 -> f3t y s n 0 (0x3f800000 + j) = f3l y s n 0x3f800000 0 0 (0x3f800000 + j) (0x40000000 + j / 8192 * 4096).
Proof.
  intros HJ. assert (U : to_u 32 (0x3f800000 + j) = 0x3f800000 + j) by (apply Z.mod_small; lia).
  assert (H0 : 0 <= j / 8192 < 0x400) by (split; [apply Z.div_pos; lia|apply Z.div_lt_upper_bound; lia]).
  assert (T : to_u 32 (to_i 32 (Z.lor (Z.land (Z.shiftr (0x3f800000 + j) 1) 0xfffff000) 0x20000000)) = 0x3fc00000 + j / 8192 * 4096).
  { rewrite shr1, land12 by (split; [apply Z.div_pos; lia|apply Z.div_lt_upper_bound; lia]). rewrite Z.div_div by lia. replace (0x3f800000 + j) with (j + 0x1fc00 * 8192) by lia. change (2 * 4096) with 8192. rewrite Z.div_add by lia.
    change 0x20000000 with (1 * 2 ^ 29). rewrite Z.lor_comm, lor_disjoint by lia. rewrite to_u_i by lia. lia. }
  rewrite (f3t_eq y s n 0 (0x3f800000 + j) 0x3f800000 (0x3fc00000 + j / 8192 * 4096 + 0x400000) (0x3fc00000 + j / 8192 * 4096 + 0x400000 + 0) 0 0); [|reflexivity| | |reflexivity|reflexivity].
  - rewrite U. f_equal; lia.
  - rewrite U, T. apply uadd_ok; lia.
  - change (shlu 32 (to_u 32 0) 21) with 0. apply uadd_ok; lia.
Qed.
Lemma f3t_1 y s n j : isbits f32 y -> finite f32 y = true -> (Rabs (val f32 y) <= bpow radix2 64)%R -> 0x0 <= j <= 0x1cc471 -> -2047 <= n <= 2047 -> (n = 0 -> j <> 0) -> OKo f32 (f3t y s n 0 (0x3f800000 + j)).
Proof.
  intros BY FY YB HJ HN NZ. rewrite f3t_1e by assumption.
  destruct (dec32_1 j HJ) as (B1 & F1 & RX & B2 & F2 & RT). set (X := 0x3f800000 + j) in *. set (th := 0x40000000 + j / 8192 * 4096) in *.
  destruct (Z.eq_dec n 0) as [N|N].
  - subst n. apply f3l_A; try assumption. apply ne1_32; unfold X; lia.
  - apply f3l_C; try assumption. lia.
Qed.

Lemma dec32_2 j : 0x1cc472 <= j <= 0x5db3d6 ->
  let X := 0x3f800000 + j in let th := 0x40200000 + j / 8192 * 4096 in isbits f32 X /\ finite f32 X = true /\ (1.2247 <= val f32 X <= 1.7321)%R /\ isbits f32 th /\ finite f32 th = true /\ (Rabs (val f32 th - (val f32 X + 1.5)) <= 2050 / 1048576)%R.
Proof.
  intros HJ X th. assert (H0 : 0 <= j / 8192 < 0x400) by (split; [apply Z.div_pos; lia|apply Z.div_lt_upper_bound; lia]).
  destruct (norm32 127 j) as (B1 & F1 & S1 & V1); [lia|lia|]. destruct (norm32 128 (0x200000 + j / 8192 * 4096)) as (B2 & F2 & S2 & V2); [lia|lia|].
  replace (127 * 2 ^ 23 + j) with X in * by (unfold X; lia). replace (128 * 2 ^ 23 + (0x200000 + j / 8192 * 4096)) with th in * by (unfold th; lia).
  assert (VX : (val f32 X = 1 + IZR j / 8388608)%R).
  { rewrite V1. change (bpow radix2 (127 - 150)) with (/ 8388608)%R. rewrite !plus_IZR. change (IZR (2 ^ 23)) with 8388608%R. field. }
  assert (VT : (val f32 th = 5 / 2 + IZR (j / 8192) * 4096 / 4194304)%R).
  { rewrite V2. change (bpow radix2 (128 - 150)) with (/ 4194304)%R. rewrite !plus_IZR, mult_IZR. change (IZR (2 ^ 23)) with 8388608%R. field. }
  pose proof (eig_bd j ltac:(lia)) as HB. assert (RJ : (1885298 <= IZR j <= 6140886)%R) by (split; apply IZR_le; lia).
  split; [exact B1|]. split; [exact F1|]. split; [rewrite VX; lra|]. split; [exact B2|]. split; [exact F2|]. rewrite VX, VT. apply Rabs_le. lra.
Qed.
Lemma f3t_2e y s n j : 0x1cc472 <= j <= 0x5db3d6 -> f3t y s n 1 (0x3f800000 + j) = f3l y s n 0x3fc00000 0x3f15c000 0x35d1cfdc (0x3f800000 + j) (0x40200000 + j / 8192 * 4096).
Proof.
  intros HJ. assert (U : to_u 32 (0x3f800000 + j) = 0x3f800000 + j) by (apply Z.mod_small; lia).
  assert (H0 : 0 <= j / 8192 < 0x400) by (split; [apply Z.div_pos; lia|apply Z.div_lt_upper_bound; lia]).
  assert (T : to_u 32 (to_i 32 (Z.lor (Z.land (Z.shiftr (0x3f800000 + j) 1) 0xfffff000) 0x20000000)) = 0x3fc00000 + j / 8192 * 4096).
  { rewrite shr1, land12 by (split; [apply Z.div_pos; lia|apply Z.div_lt_upper_bound; lia]). rewrite Z.div_div by lia. replace (0x3f800000 + j) with (j + 0x1fc00 * 8192) by lia. change (2 * 4096) with 8192. rewrite Z.div_add by lia.
    change 0x20000000 with (1 * 2 ^ 29). rewrite Z.lor_comm, lor_disjoint by lia. rewrite to_u_i by lia. lia. }
  rewrite (f3t_eq y s n 1 (0x3f800000 + j) 0x3fc00000 (0x3fc00000 + j / 8192 * 4096 + 0x400000) (0x3fc00000 + j / 8192 * 4096 + 0x400000 + 0x200000) 0x35d1cfdc 0x3f15c000); [|reflexivity| | |reflexivity|reflexivity].
  - rewrite U. f_equal; lia.
  - rewrite U, T. apply uadd_ok; lia.
  - change (shlu 32 (to_u 32 1) 21) with 0x200000. apply uadd_ok; lia.
Qed.
Lemma f3t_2 y s n j : isbits f32 y -> finite f32 y = true -> (Rabs (val f32 y) <= bpow radix2 64)%R -> 0x1cc472 <= j <= 0x5db3d6 -> -2047 <= n <= 2047 -> OKo f32 (f3t y s n 1 (0x3f800000 + j)).
Proof.
  intros BY FY YB HJ HN . rewrite f3t_2e by assumption.
  destruct (dec32_2 j HJ) as (B1 & F1 & RX & B2 & F2 & RT). set (X := 0x3f800000 + j) in *. set (th := 0x40200000 + j / 8192 * 4096) in *.
  apply f3l_D; assumption.
Qed.

Lemma dec32_3 j : 0x5db3d7 <= j <= 0x7fffff ->
  let X := 0x3f000000 + j in let th := 0x3fc00000 + j / 8192 * 4096 in isbits f32 X /\ finite f32 X = true /\ (0.866 <= val f32 X <= 1.22478)%R /\ isbits f32 th /\ finite f32 th = true /\ (Rabs (val f32 th - (val f32 X + 1)) <= 2050 / 1048576)%R.
Proof.
  intros HJ X th. assert (H0 : 0 <= j / 8192 < 0x400) by (split; [apply Z.div_pos; lia|apply Z.div_lt_upper_bound; lia]).
  destruct (norm32 126 j) as (B1 & F1 & S1 & V1); [lia|lia|]. destruct (norm32 127 (0x400000 + j / 8192 * 4096)) as (B2 & F2 & S2 & V2); [lia|lia|].
  replace (126 * 2 ^ 23 + j) with X in * by (unfold X; lia). replace (127 * 2 ^ 23 + (0x400000 + j / 8192 * 4096)) with th in * by (unfold th; lia).
  assert (VX : (val f32 X = 1 / 2 + IZR j / 16777216)%R).
  { rewrite V1. change (bpow radix2 (126 - 150)) with (/ 16777216)%R. rewrite !plus_IZR. change (IZR (2 ^ 23)) with 8388608%R. field. }
  assert (VT : (val f32 th = 3 / 2 + IZR (j / 8192) * 4096 / 8388608)%R).
  { rewrite V2. change (bpow radix2 (127 - 150)) with (/ 8388608)%R. rewrite !plus_IZR, mult_IZR. change (IZR (2 ^ 23)) with 8388608%R. field. }
  pose proof (eig_bd j ltac:(lia)) as HB. assert (RJ : (6140887 <= IZR j <= 8388607)%R) by (split; apply IZR_le; lia).
  split; [exact B1|]. split; [exact F1|]. split; [rewrite VX; lra|]. split; [exact B2|]. split; [exact F2|]. rewrite VX, VT. apply Rabs_le. lra.
Qed.
Lemma f3t_3e y s n j : 0x5db3d7 <= j <= 0x7fffff -> f3t y s n 0 (0x3f000000 + j) = f3l y s n 0x3f800000 0 0 (0x3f000000 + j) (0x3fc00000 + j / 8192 * 4096).
Proof.
  intros HJ. assert (U : to_u 32 (0x3f000000 + j) = 0x3f000000 + j) by (apply Z.mod_small; lia).
  assert (H0 : 0 <= j / 8192 < 0x400) by (split; [apply Z.div_pos; lia|apply Z.div_lt_upper_bound; lia]).
  assert (T : to_u 32 (to_i 32 (Z.lor (Z.land (Z.shiftr (0x3f000000 + j) 1) 0xfffff000) 0x20000000)) = 0x3f800000 + j / 8192 * 4096).
  { rewrite shr1, land12 by (split; [apply Z.div_pos; lia|apply Z.div_lt_upper_bound; lia]). rewrite Z.div_div by lia. replace (0x3f000000 + j) with (j + 0x1f800 * 8192) by lia. change (2 * 4096) with 8192. rewrite Z.div_add by lia.
    change 0x20000000 with (1 * 2 ^ 29). rewrite Z.lor_comm, lor_disjoint by lia. rewrite to_u_i by lia. lia. }
  rewrite (f3t_eq y s n 0 (0x3f000000 + j) 0x3f800000 (0x3f800000 + j / 8192 * 4096 + 0x400000) (0x3f800000 + j / 8192 * 4096 + 0x400000 + 0) 0 0); [|reflexivity| | |reflexivity|reflexivity].
  - rewrite U. f_equal; lia.
  - rewrite U, T. apply uadd_ok; lia.
  - change (shlu 32 (to_u 32 0) 21) with 0. apply uadd_ok; lia.
Qed.
Lemma f3t_3 y s n j : isbits f32 y -> finite f32 y = true -> (Rabs (val f32 y) <= bpow radix2 64)%R -> 0x5db3d7 <= j <= 0x7fffff -> -2047 <= n <= 2047 -> OKo f32 (f3t y s n 0 (0x3f000000 + j)).
Proof.
  intros BY FY YB HJ HN . rewrite f3t_3e by assumption.
  destruct (dec32_3 j HJ) as (B1 & F1 & RX & B2 & F2 & RT). set (X := 0x3f000000 + j) in *. set (th := 0x3fc00000 + j / 8192 * 4096) in *.
  destruct (Z.eq_dec n 0) as [N|N].
  - subst n. apply f3l_A; try assumption. apply ne1_32; unfold X; lia.
  - apply f3l_C; try assumption. lia.
Qed.

Lemma f3m_tot y s n0 E j : isbits f32 y -> finite f32 y = true -> (Rabs (val f32 y) <= bpow radix2 64)%R -> 0 <= j < 0x800000 -> 0 <= E <= 254 -> -24 <= n0 <= 0 ->
  (n0 + E = 127 -> j <> 0) -> OKo f32 (f3m y s n0 (E * 2 ^ 23 + j)).
Proof.
  intros BY FY YB HJ HE HN NZ. unfold f3m. rewrite Z.shiftr_div_pow2 by lia. assert (Q : (E * 2 ^ 23 + j) / 2 ^ 23 = E) by (rewrite Z.add_comm, Z.div_add, Z.div_small by lia; lia). rewrite Q.
  assert (M : Z.land (E * 2 ^ 23 + j) 0x7fffff = j) by (change 0x7fffff with (2 ^ 23 - 1); rewrite land_pow2m1, Z.add_comm, Z.mod_add, Z.mod_small by lia; lia). rewrite M.
  assert (L : Z.lor j 0x3f800000 = 0x3f800000 + j) by (change 0x3f800000 with (127 * 2 ^ 23); rewrite Z.lor_comm, lor_disjoint by lia; lia). rewrite L.
  rewrite ssub_ok by lia. cbn [bind]. rewrite sadd_ok by lia. cbn [bind]. cbv zeta.
  destruct (Z.leb_spec j 0x1cc471) as [C1|C1]; [|destruct (Z.ltb_spec j 0x5db3d7) as [C2|C2]]; cbn [bind].
  - apply f3t_1; try assumption; lia.
  - apply f3t_2; try assumption; lia.
  - rewrite sadd_ok by lia. cbn [bind]. rewrite ssub_ok by lia. cbn [bind]. replace (0x3f800000 + j - 0x800000) with (0x3f000000 + j) by lia. apply f3t_3; try assumption; lia.
Qed.
Lemma ybd32 y h : isbits f32 y -> a32 y <= h -> 0 <= h < 0x7f800000 -> (Rabs (val f32 y) <= val f32 h)%R.
Proof.
  intros B H HH. destruct (bits32 y B) as [_ R]. destruct (val_a32 y B) as (B2 & A2 & F2 & V2). destruct (pos32 (a32 y) ltac:(lia)) as (_ & _ & S).
  destruct (IN_pos32 0 h (a32 y) B2 S ltac:(lia) ltac:(lia) ltac:(lia)) as (_ & FA & I). cbn [fst snd] in I. rewrite V2 in I. lra.
Qed.
Lemma powf1_tot y ax s hy : isbits f32 y -> finite f32 y = true -> 0 < ax < 0x7f800000 -> ax <> 0x3f800000 -> OKo f32 (rs_powf_1 y ax s hy ax (a32 y)).
Proof.
  intros BY FY HA NA. rewrite f3_split. pose proof FY as RY. rewrite fin32, Z.ltb_lt in RY by assumption. destruct (Z.ltb_spec 0x4d000000 (a32 y)) as [C|C].
  - destruct (Z.ltb_spec ax 0x3f7ffff8) as [C1|C1]; [destruct (hy <? 0); apply ok_mul|]. destruct (Z.ltb_spec 0x3f800007 ax) as [C2|C2]; [destruct (0 <? hy); apply ok_mul|].
    destruct (pos32 ax ltac:(lia)) as (B & A & S). pose proof (ne1_32 ax ltac:(lia) NA) as NE.
    pose proof (IN_pos32 0x3f7ffff8 0x3f800007 ax B S ltac:(lia) ltac:(lia) ltac:(lia)) as (_ & FA & I). cbn [fst snd] in I.
    assert (V : val f32 0x3f7ffff8 = (16777208 / 16777216)%R) by lit. assert (V2 : val f32 0x3f800007 = (8388615 / 8388608)%R) by lit. rewrite V, V2 in I.
    cbv zeta. eapply near32; [reflexivity|reflexivity|reflexivity|reflexivity|reflexivity|reflexivity|assumption|assumption| |exact FA|]. 2:{ split; [exact NE|]. apply Rabs_le. lra. }
    destruct (bits32 y BY) as [_ R]. eapply Rle_trans; [exact (ybd32 y 0x7f7fffff BY ltac:(lia) ltac:(lia))|]. assert (E : val f32 0x7f7fffff = (340282346638528859811704183484516925440 / 1)%R) by lit. rewrite E. change (bpow radix2 128) with 340282366920938463463374607431768211456%R. lra.
  - assert (YB : (Rabs (val f32 y) <= bpow radix2 64)%R).
    { eapply Rle_trans; [exact (ybd32 y 0x4d000000 BY ltac:(lia) ltac:(lia))|]. assert (E : val f32 0x4d000000 = (134217728 / 1)%R) by lit. rewrite E. change (bpow radix2 64) with 18446744073709551616%R. lra. }
    destruct (Z.ltb_spec ax 0x800000) as [C1|C1].
    + rewrite ssub_ok by lia. cbn [bind]. destruct (pos32 ax ltac:(lia)) as (BA & AA & SA).
      assert (KA : IN f32 (1, 0x7fffff) ax) by (apply IN_pos32; try assumption; rewrite ?AA; lia). unfold rs_powf_TWO24.
      ivl f32 (ax *' 0x4b800000)%fl K. apply IN_bitsb in K; [|vm_compute; reflexivity]. revert K. generalize (ax *' 0x4b800000)%fl. intros a K.
      assert (HH : 0 <= a < 0x0d000000) by lia. assert (T : to_i 32 a = a) by (unfold to_i; cbv zeta; rewrite Z.mod_small by lia; zdec; lia).
      rewrite T. pose proof (Z.div_mod a (2 ^ 23) ltac:(lia)) as DH. pose proof (Z.mod_pos_bound a (2 ^ 23) ltac:(lia)) as MH.
      replace a with (a / 2 ^ 23 * 2 ^ 23 + a mod 2 ^ 23) by lia. apply f3m_tot; try assumption; lia.
    + cbn [bind]. pose proof (Z.div_mod ax (2 ^ 23) ltac:(lia)) as DH. pose proof (Z.mod_pos_bound ax (2 ^ 23) ltac:(lia)) as MH.
      replace ax with (ax / 2 ^ 23 * 2 ^ 23 + ax mod 2 ^ 23) by lia. apply f3m_tot; try assumption; lia.
Qed.
Theorem powf_tot x y : isbits f32 x -> isbits f32 y -> OKo f32 (rs_powf x y).
Proof.
  intros Bx By. destruct (iszero f32 y) eqn:Zy. { rewrite (pow_x_0 _ _ C32_powf) by assumption. apply ok_some. vm_compute. split; [discriminate|reflexivity]. }
  destruct (Z.eq_dec x 0x3f800000) as [X1|X1]. { rewrite X1. change 0x3f800000 with (onef f32 false). rewrite (pow_1_y _ _ C32_powf) by assumption. apply ok_some. vm_compute. split; [discriminate|reflexivity]. }
  destruct (isnan f32 x) eqn:Nx. { destruct (pow_nan _ _ C32_powf x y Bx By (or_introl Nx) Zy X1) as (r & E & B & _). now exists r. }
  destruct (isnan f32 y) eqn:Ny. { destruct (pow_nan _ _ C32_powf x y Bx By (or_intror Ny) Zy X1) as (r & E & B & _). now exists r. }
  destruct (powf_head x y Bx By Nx Ny Zy X1) as (c & E & _). rewrite E. clear E.
  rewrite nan32, Z.ltb_ge in Nx, Ny by assumption. destruct (bits32 x Bx) as [_ Rx]. destruct (bits32 y By) as [_ Ry]. destruct (val_a32 x Bx) as (BA & _).
  unfold powf_tail. cbv zeta. destruct (Z.eqb_spec (a32 y) 0x7f800000) as [C|C].
  - destruct (_ =? 0x3f800000); [apply ok_some; vm_compute; split; [discriminate|reflexivity]|].
    destruct (0x3f800000 <? _); destruct (0 <=? _); apply ok_some; first [assumption|now apply fneg_isbits|vm_compute; split; [discriminate|reflexivity]].
  - assert (FY : finite f32 y = true) by (rewrite fin32, Z.ltb_lt by assumption; lia).
    destruct (_ =? 0x3f800000); [destruct (0 <=? _); apply ok_some; [exact Bx|apply fdiv_isbits]|].
    destruct (_ =? 0x40000000); [apply ok_some, fmul_isbits|]. destruct (_ && _); [exact (sqrtf_total x Bx)|].
    rewrite fabs32. set (hx := to_i 32 x). set (hy := to_i 32 y).
    assert (T : forall s, a32 x <> 0x7f800000 -> a32 x <> 0 -> a32 x <> 0x3f800000 -> OKo f32 (rs_powf_1 y (a32 x) s hy (a32 x) (a32 y))) by (intros; apply powf1_tot; try assumption; lia).
    destruct (Z.eqb_spec (a32 x) 0x7f800000) as [C1|C1]; [|destruct (Z.eqb_spec (a32 x) 0) as [C2|C2]; [|destruct (Z.eqb_spec (a32 x) 0x3f800000) as [C3|C3]]]; cbn [orb].
    4:{ destruct (hx <? 0); [|now apply T]. destruct (c =? 0); [apply ok_some, fdiv_isbits|]. now apply T. }
    all: rewrite ssub_ok by lia; cbn [bind];
    (assert (ZB : isbits f32 (if hy <? 0 then 0x3f800000 /' a32 x else a32 x)%fl) by (destruct (hy <? 0); [apply fdiv_isbits|exact BA]));
    (destruct (hx <? 0); cbn [bind]; [|now apply ok_some]);
    (match goal with |- context[Z.lor ?a ?b =? 0] => destruct (Z.lor a b =? 0) end; [apply ok_some, fdiv_isbits|]);
    (destruct (c =? 1); [now apply ok_some, fneg_isbits|now apply ok_some]).
Qed.
