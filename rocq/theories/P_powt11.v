(** [pow] never panics. *)
From Coq Require Import ZArith Reals Lia Lra Bool List Psatz.
From Flocq Require Import Core.
From Verif Require Import Base Spec Format P_format Ieee P_ieee P_real P_neg P_key P_elem P_elem2 P_tot P_exp P_lit P_err P_dom P_apx P_ival P_ival2 P_cbrt3 P_red64b P_pow P_sym3 P_powt P_powt2 P_powt3 P_powt4 P_powt5 P_powt6 P_powt7 P_powt8 P_powt9 P_powt10 M_basic M_scalbn M_sqrt M_elib M_pow SpecFun SpecElem SpecPow Prop_pow.
Open Scope Z_scope.
Local Opaque fadd fsub fmul fdiv of_int p3l p3t rs_pow_5 rs_pow_4.

(** the main path, the argument being E 2^52 + j 2^32 + lo *)
Definition p3m (y s ax n ix : Z) : option Z :=
    let* v26 := ssub 32 (Z.shiftr ix 20) 1023 in
    let* n := sadd 32 n v26 in
    let j := Z.land ix 0xfffff in
    let ix := Z.lor j 0x3ff00000 in
    let* (k_1, n, ix) :=
      (if j <=? 0x3988e then
         let k_1 := 0 in
         Some (k_1, n, ix)
       else 
         let* (k_1, n, ix) :=
           (if j <? 0xbb67a then
              let k_1 := 1 in
              Some (k_1, n, ix)
            else 
              let k_1 := 0 in
              let* n := sadd 32 n 1 in
              let* ix := ssub 32 ix 0x100000 in
              Some (k_1, n, ix)) in
         Some (k_1, n, ix)) in
    p3t y s n k_1 ix ax.
Lemma p3m_tot y s ax n0 E j : isbits f64 y -> finite f64 y = true -> (Rabs (val f64 y) <= bpow radix2 64)%R -> 0 <= j < 0x100000 -> 0 <= E <= 2046 -> -53 <= n0 <= 0 ->
  (n0 + E = 1023 -> j = 0 -> ax mod 2 ^ 32 <> 0) -> OKo f64 (p3m y s ax n0 (E * 2 ^ 20 + j)).
Proof.
  intros BY FY YB HJ HE HN NZ. unfold p3m. rewrite Z.shiftr_div_pow2 by lia. assert (Q : (E * 2 ^ 20 + j) / 2 ^ 20 = E) by (rewrite Z.add_comm, Z.div_add, Z.div_small by lia; lia). rewrite Q.
  assert (M : Z.land (E * 2 ^ 20 + j) 0xfffff = j) by (change 0xfffff with (2 ^ 20 - 1); rewrite land_pow2m1, Z.add_comm, Z.mod_add, Z.mod_small by lia; lia). rewrite M.
  assert (L : Z.lor j 0x3ff00000 = 0x3ff00000 + j) by (change 0x3ff00000 with (0x3ff * 2 ^ 20); rewrite Z.lor_comm, lor_disjoint by lia; lia). rewrite L.
  rewrite ssub_ok by lia. cbn [bind]. rewrite sadd_ok by lia. cbn [bind]. cbv zeta.
  destruct (Z.leb_spec j 0x3988e) as [C1|C1]; [|destruct (Z.ltb_spec j 0xbb67a) as [C2|C2]]; cbn [bind].
  - apply p3t_1; try assumption; lia.
  - apply p3t_2; try assumption; lia.
  - rewrite sadd_ok by lia. cbn [bind]. rewrite ssub_ok by lia. cbn [bind]. replace (0x3ff00000 + j - 0x100000) with (0x3fe00000 + j) by lia. apply p3t_3; try assumption; lia.
Qed.
Lemma ybd y h : isbits f64 y -> a64 y / 2 ^ 32 <= h -> 0 <= h < 0x7fe00000 -> finite f64 y = true /\ (Rabs (val f64 y) <= val f64 ((h + 1) * 2 ^ 32))%R.
Proof.
  intros B H HH. destruct (bits64 y B) as [_ R]. pose proof (Z.div_mod (a64 y) (2 ^ 32) ltac:(lia)). pose proof (Z.mod_pos_bound (a64 y) (2 ^ 32) ltac:(lia)).
  destruct (val_a64 y B) as (B2 & A2 & F2 & V2). destruct (pos64 (a64 y) ltac:(lia)) as (_ & _ & S).
  destruct (IN_pos64 0 ((h + 1) * 2 ^ 32) (a64 y) B2 S ltac:(lia) ltac:(lia) ltac:(lia)) as (_ & FA & I). cbn [fst snd] in I. rewrite V2 in I. rewrite F2 in FA. split; [exact FA|]. lra.
Qed.
Lemma pow3_tot y hy ix iy ax s : isbits f64 y -> finite f64 y = true -> iy = a64 y / 2 ^ 32 -> 0 < ax < 0x7ff0000000000000 -> ax <> 0x3ff0000000000000 -> ix = ax / 2 ^ 32 -> OKo f64 (rs_pow_3 y hy ix iy ax s).
Proof.
  intros BY FY HY HA NA HI. rewrite p3_split. pose proof (Z.div_mod ax (2 ^ 32) ltac:(lia)) as DM. pose proof (Z.mod_pos_bound ax (2 ^ 32) ltac:(lia)) as MB. rewrite <- HI in DM.
  destruct (Z.ltb_spec 0x41e00000 iy) as [C|C].
  - destruct (Z.ltb_spec 0x43f00000 iy) as [C1|C1].
    + destruct (Z.leb_spec ix 0x3fefffff) as [C2|C2]; [destruct (hy <? 0); apply ok_mul|]. destruct (Z.leb_spec 0x3ff00000 ix); [destruct (0 <? hy); apply ok_mul|lia].
    + apply pow5_tot; try assumption; try lia. destruct (ybd y 0x43f00000 BY ltac:(lia) ltac:(lia)) as [_ V]. eapply Rle_trans; [exact V|].
      assert (E : val f64 ((0x43f00000 + 1) * 2 ^ 32) = (18446761665895596032 / 1)%R) by lit. rewrite E. change (bpow radix2 65) with 36893488147419103232%R. lra.
  - destruct (ybd y 0x41e00000 BY ltac:(lia) ltac:(lia)) as [_ V]. assert (YB : (Rabs (val f64 y) <= bpow radix2 64)%R).
    { eapply Rle_trans; [exact V|]. assert (E : val f64 ((0x41e00000 + 1) * 2 ^ 32) = (2147485696 / 1)%R) by lit. rewrite E. change (bpow radix2 64) with 18446744073709551616%R. lra. }
    clear V. cbv zeta. destruct (Z.ltb_spec ix 0x100000) as [C1|C1].
    + rewrite ssub_ok by lia. cbn [bind]. destruct (pos64 ax ltac:(lia)) as (BA & AA & SA).
      assert (KA : IN f64 (1, 0xfffffffffffff) ax) by (apply IN_pos64; try assumption; rewrite ?AA; lia). unfold rs_pow_TWO53.
      ivl f64 (ax *: 0x4340000000000000)%fl K. apply IN_bitsb in K; [|vm_compute; reflexivity]. revert K. generalize (ax *: 0x4340000000000000)%fl. intros a K.
      unfold get_high_word. rewrite (Z.shiftr_div_pow2 a 32) by lia. pose proof (Z.div_mod a (2 ^ 32) ltac:(lia)) as DA. pose proof (Z.mod_pos_bound a (2 ^ 32) ltac:(lia)) as MA.
      set (h := a / 2 ^ 32) in *. assert (HH : 0x3cd00000 - 0x3cd00000 <= h < 0x04000000) by lia. assert (T : to_i 32 (to_u 32 h) = h) by (unfold to_u; rewrite (Z.mod_small h) by lia; unfold to_i; cbv zeta; rewrite Z.mod_small by lia; zdec; lia).
      rewrite T. pose proof (Z.div_mod h (2 ^ 20) ltac:(lia)) as DH. pose proof (Z.mod_pos_bound h (2 ^ 20) ltac:(lia)) as MH.
      change (OKo f64 (p3m y s a (0 - 53) h)). replace h with (h / 2 ^ 20 * 2 ^ 20 + h mod 2 ^ 20) by lia. apply p3m_tot; try assumption; lia.
    + cbn [bind]. pose proof (Z.div_mod ix (2 ^ 20) ltac:(lia)) as DH. pose proof (Z.mod_pos_bound ix (2 ^ 20) ltac:(lia)) as MH.
      change (OKo f64 (p3m y s ax 0 ix)). replace ix with (ix / 2 ^ 20 * 2 ^ 20 + ix mod 2 ^ 20) by lia. apply p3m_tot; try assumption; lia.
Qed.
Lemma ok_some F r : isbits F r -> OKo F (Some r). Proof. intros B. now exists r. Qed.
Lemma pow1_tot x y c : isbits f64 x -> isbits f64 y -> isnan f64 x = false -> finite f64 y = true -> OKo f64 (rs_pow_1 x y (to_i 32 (Z.shiftr x 32)) (to_u 32 x) (to_i 32 (Z.shiftr y 32)) (a64 x / 2 ^ 32) (a64 y / 2 ^ 32) c).
Proof.
  intros Bx By Nx Fy. unfold rs_pow_1. cbv zeta. pose proof (lw64 x Bx) as [Wx Vx]. change (get_low_word x) with (to_u 32 x) in *. pose proof (a64_hi x Bx) as Hx. rewrite nan64, Z.ltb_ge in Nx by assumption.
  rewrite (fabs64 x). set (hx := to_i 32 (Z.shiftr x 32)). set (l := to_u 32 x) in *. destruct (bits64 x Bx) as [_ Rx]. destruct (val_a64 x Bx) as (BA & _).
  assert (G : ~ (l = 0 /\ (a64 x / 2 ^ 32 = 0x7ff00000 \/ a64 x / 2 ^ 32 = 0 \/ a64 x / 2 ^ 32 = 0x3ff00000)) -> OKo f64 (rs_pow_2 x y hx (to_i 32 (Z.shiftr y 32)) (a64 x / 2 ^ 32) (a64 y / 2 ^ 32) c (a64 x))).
  { intros G. unfold rs_pow_2. cbv zeta. assert (T : forall s, OKo f64 (rs_pow_3 y (to_i 32 (Z.shiftr y 32)) (a64 x / 2 ^ 32) (a64 y / 2 ^ 32) (a64 x) s)).
    { intros s. apply pow3_tot; try assumption; try reflexivity; lia. }
    destruct (hx <? 0); [|apply T]. destruct (c =? 0); [apply ok_some, fdiv_isbits|]. apply T. }
  destruct (Z.eqb_spec l 0) as [L|L]; [|apply G; tauto].
  destruct (Z.eqb_spec (a64 x / 2 ^ 32) 0x7ff00000) as [C1|C1]; [|destruct (Z.eqb_spec (a64 x / 2 ^ 32) 0) as [C2|C2]; [|destruct (Z.eqb_spec (a64 x / 2 ^ 32) 0x3ff00000) as [C3|C3]; [|cbn [orb]; apply G; tauto]]];
  cbn [orb]; clear G; rewrite ssub_ok by lia; cbn [bind];
  (destruct (hx <? 0); [|destruct (to_i 32 (Z.shiftr y 32) <? 0); apply ok_some; [apply fdiv_isbits|exact BA]]);
  (match goal with |- context[if ?b then _ else _] => destruct b end; [destruct (to_i 32 (Z.shiftr y 32) <? 0); apply ok_some, fdiv_isbits|]);
  (destruct (c =? 1); [apply ok_some, fneg_isbits; destruct (to_i 32 (Z.shiftr y 32) <? 0); [apply fdiv_isbits|exact BA]|]);
  (destruct (to_i 32 (Z.shiftr y 32) <? 0); apply ok_some; [apply fdiv_isbits|exact BA]).
Qed.
Theorem pow_tot x y : isbits f64 x -> isbits f64 y -> OKo f64 (rs_pow x y).
Proof.
  intros Bx By. destruct (iszero f64 y) eqn:Zy. { rewrite (pow_x_0 _ _ C32_pow) by assumption. apply ok_some. vm_compute. split; [discriminate|reflexivity]. }
  destruct (Z.eq_dec x 0x3ff0000000000000) as [X1|X1]. { rewrite X1. change 0x3ff0000000000000 with (onef f64 false). rewrite (pow_1_y _ _ C32_pow) by assumption. apply ok_some. vm_compute. split; [discriminate|reflexivity]. }
  destruct (isnan f64 x) eqn:Nx. { destruct (pow_nan _ _ C32_pow x y Bx By (or_introl Nx) Zy X1) as (r & E & B & _). now exists r. }
  destruct (isnan f64 y) eqn:Ny. { destruct (pow_nan _ _ C32_pow x y Bx By (or_intror Ny) Zy X1) as (r & E & B & _). now exists r. }
  destruct (pow_head x y Bx By Nx Ny Zy X1) as (c & E & _). rewrite E. clear E.
  pose proof (lw64 y By) as [Wy Vy]. change (get_low_word y) with (to_u 32 y) in *. pose proof (a64_hi x Bx) as Hx. pose proof (a64_hi y By) as Hy. pose proof Ny as Ny'. rewrite nan64, Z.ltb_ge in Ny' by assumption.
  assert (P1 : ~ (to_u 32 y = 0 /\ a64 y / 2 ^ 32 = 0x7ff00000) -> OKo f64 (rs_pow_1 x y (to_i 32 (Z.shiftr x 32)) (to_u 32 x) (to_i 32 (Z.shiftr y 32)) (a64 x / 2 ^ 32) (a64 y / 2 ^ 32) c)).
  { intros H. apply pow1_tot; try assumption. rewrite fin64, Z.ltb_lt by assumption. destruct (bits64 y By) as [_ R]. lia. }
  unfold pow_tail. set (l := to_u 32 y) in *. set (h := a64 y / 2 ^ 32) in *.
  destruct (Z.eqb_spec l 0) as [L|L]; [|apply P1; tauto].
  destruct (Z.eqb_spec h 0x7ff00000) as [C|C].
  - rewrite ssub_ok by lia. cbn [bind]. destruct (_ =? 0); [apply ok_some; vm_compute; split; [discriminate|reflexivity]|].
    destruct (0x3ff00000 <=? _); destruct (0 <=? _); apply ok_some; first [assumption|now apply fneg_isbits|vm_compute; split; [discriminate|reflexivity]].
  - assert (P2 : OKo f64 (rs_pow_1 x y (to_i 32 (Z.shiftr x 32)) (to_u 32 x) (to_i 32 (Z.shiftr y 32)) (a64 x / 2 ^ 32) h c)) by (apply P1; tauto). clear P1.
    destruct (h =? 0x3ff00000); [destruct (0 <=? _); apply ok_some; [exact Bx|apply fdiv_isbits]|].
    destruct (_ =? 0x40000000); [apply ok_some, fmul_isbits|]. destruct (_ =? 0x3fe00000); [|exact P2]. destruct (0 <=? _); [|exact P2]. exact (sqrt_total x Bx).
Qed.
