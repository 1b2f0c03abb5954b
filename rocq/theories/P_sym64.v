(** Sign symmetry of the double precision [sin] and [cos], and of their argument reduction. *)
From Coq Require Import ZArith Reals Lia Lra Bool List Psatz.
From Flocq Require Import Core.
From Verif Require Import Base Spec SpecFun SpecAcc SpecSym Format P_format Ieee P_ieee P_real P_lit P_neg M_basic M_elib M_rempio2 M_trig
  P_elem P_elem2 P_ival P_ival2 P_tot P_bessel P_sc P_sym P_sym2 P_sym3 P_err P_rem P_fx P_acc P_kerf P_kerf2 P_medf P_rplf P_symf P_red64 P_red64b P_red64c P_red64d P_ksc P_ker64 P_ker64c P_trig64.
Open Scope Z_scope.
Open Scope fl_scope.

(** ** the calculus of opposite values *)
Lemma rel_expf z s x y : rel f64 z s x y -> expf f64 y = expf f64 x.
Proof.
  intros R. pose proof R as (Bx & By & [[A C] | [(A & C & _) | (A & C & V & _)]]).
  - unfold isnan in A, C. apply andb_prop in A as [A _]. apply andb_prop in C as [C _]. apply Z.eqb_eq in A, C. congruence.
  - unfold isinf in A, C. apply andb_prop in A as [A _]. apply andb_prop in C as [C _]. apply Z.eqb_eq in A, C. congruence.
  - destruct (Req_dec (val f64 x) 0) as [Z0 | NZ].
    + pose proof (fin_zero f64 s x y Bx By A C V) as HZ.
      assert (iszero f64 x = true) as Zx by (apply val_eq_0; assumption). rewrite Zx in HZ. unfold iszero in Zx, HZ. apply andb_prop in Zx as [Zx _]. apply andb_prop in HZ as [HZ _]. apply Z.eqb_eq in Zx, HZ. congruence.
    + pose proof (rel_eq f64 s x y (rel_strict _ _ _ _ (rel_weaken _ _ _ _ _ R) (fun _ => NZ)) (finite_not_nan _ _ A)) as E. destruct s; subst y; [|reflexivity]. apply fneg_fields. exact Bx.
Qed.
Lemma rel_sub_add x x' p : isbits f64 p -> finite f64 p = true -> rel f64 false true x x' -> rel f64 false true (x -: p) (x' +: p).
Proof.
  intros Bp Fp R. pose proof R as (Bx & Bx' & [[A C] | [(A & C & S) | (A & C & V & _)]]).
  - apply rel_both_nan; [apply fsub_isbits|apply fadd_isbits|apply fsub_nan; now rewrite A|apply fadd_nan; now rewrite C].
  - rewrite (fsub_inf_l f64 x p A Fp), (fadd_inf_l f64 x' p C Fp). apply rel_infs. exact S.
  - eapply rounds_rel; [apply fsub_spec; assumption| |discriminate]. replace (sval true (val f64 x - val f64 p)) with (val f64 x' + val f64 p)%R by (rewrite V; cbn [sval]; ring). apply fadd_spec; assumption.
Qed.
Lemma rel_val s x y : isbits f64 x -> isbits f64 y -> finite f64 x = true -> finite f64 y = true -> val f64 y = sval s (val f64 x) -> rel f64 false s x y.
Proof. intros. split; [assumption|]. split; [assumption|]. right. right. repeat (split; [assumption|]). discriminate. Qed.

(** ** the reduction of the opposite argument *)
Definition opp_red (p q : option (Z * Z * Z)) : Prop :=
  match p, q with
  | Some (n, y0, y1), Some (n', y0', y1') => n' = - n /\ rel f64 false true y0 y0' /\ rel f64 false true y1 y1'
  | None, None => True
  | _, _ => False
  end.
Lemma opp_intro r r' w w' y y' n n' : n' = - n -> rel f64 false true r r' -> rel f64 false true w w' -> rel f64 false true y y' ->
  opp_red (Some (n, y, (r -: y) -: w)) (Some (n', y', (r' -: y') -: w')).
Proof. intros N R W Y. cbn [opp_red]. split; [exact N|]. split; [exact Y|]. apply (rel_fsub f64 false true); [|exact W]. now apply (rel_fsub f64 false true). Qed.
Lemma medium_opp x ix : isbits f64 x -> finite f64 x = true -> (Rabs (val f64 x) <= 1647100)%R -> opp_red (rs_rem_pio2_medium x ix) (rs_rem_pio2_medium (fneg f64 x) ix).
Proof.
  intros B F H. unfold rs_rem_pio2_medium. cbv zeta. replace TO_INT with TOINT_f by (vm_compute; reflexivity).
  assert (FI : finite f64 INV_PIO2 = true) by (vm_compute; reflexivity).
  destruct (mul64 x INV_PIO2 2000000 F FI) as [Fq Eq]; [|apply big1000; lra|].
  { rewrite INV_val, Rabs_mult. rewrite (Rabs_pos_eq (_ / _)) by lra. pose proof (Rabs_pos (val f64 x)). lra. }
  assert (Rq : fneg f64 x *: INV_PIO2 = fneg f64 (x *: INV_PIO2)).
  { pose proof (rel_fmul f64 true true false _ _ _ _ (rel_fneg f64 true x B) (c_rel true INV_PIO2 ltac:(vm_compute; reflexivity))) as RM. apply (rel_eq f64 true _ _ RM). now apply finite_not_nan. }
  rewrite Rq. pose proof (fmul_isbits f64 x INV_PIO2) as Bq. set (q := x *: INV_PIO2) in *.
  assert (QB : (Rabs (val f64 q) <= 4000000)%R).
  { rewrite Eq. pose proof (rnd64_err (val f64 x * val f64 INV_PIO2)) as Qe. pose proof tiny200 as T. rewrite INV_val in *. rewrite Rabs_mult, (Rabs_pos_eq (_ / _)) in Qe by lra.
    set (v := rnd f64 _) in *. replace v with ((v - val f64 x * (5734161139222659 / 9007199254740992)) + val f64 x * (5734161139222659 / 9007199254740992))%R by ring. eapply Rle_trans; [apply Rabs_triang|]. rewrite (Rabs_mult (val f64 x)), (Rabs_pos_eq (_ / _)) by lra. lra. }
  pose proof (toint_E q Fq ltac:(lra)) as T1. destruct (okv_neg q _ Bq Fq eq_refl) as (Bq' & Fq' & Vq').
  pose proof (toint_E (fneg f64 q) Fq' ltac:(rewrite Vq', Rabs_Ropp; lra)) as T2. rewrite Vq', ZnearestE_opp in T2.
  set (k := ZnearestE (val f64 q)) in *. set (fn := (q +: TOINT_f) -: TOINT_f) in *. set (fn' := (fneg f64 q +: TOINT_f) -: TOINT_f) in *.
  assert (KB : -4000001 <= k <= 4000001).
  { pose proof (Znearest_half (fun x => negb (Z.even x)) (val f64 q)) as ZH. fold k in ZH. apply Rabs_le_inv in ZH. apply Rabs_le_inv in QB. split; apply Z.lt_succ_r, lt_IZR; [change (Z.succ k) with (k + 1)|change (Z.succ 4000001) with 4000002]; rewrite ?plus_IZR; lra. }
  rewrite (fx_toint_s fn k ltac:(lia) T1), (fx_toint_s fn' (- k) ltac:(lia) T2).
  assert (RN : rel f64 false true fn fn').
  { destruct T1 as (B1 & F1 & V1), T2 as (B2 & F2 & V2). apply rel_val; try assumption. rewrite V1, V2, opp_IZR. cbn [sval]. ring. }
  clearbody k fn fn'. clear Rq Bq Fq Eq QB T1 T2 Bq' Fq' Vq' q KB.
  assert (MC : forall c, ((0 <=? c)%Z && (c <? 2 ^ 64)%Z)%bool = true -> rel f64 false true (fn *: c) (fn' *: c)).
  { intros c Hc. apply (rel_fmul f64 false true false); [exact RN|]. now apply c_rel. }
  pose proof (MC PIO2_1 eq_refl) as M1. pose proof (MC PIO2_1T eq_refl) as M1T. pose proof (MC PIO2_2 eq_refl) as M2. pose proof (MC PIO2_2T eq_refl) as M2T. pose proof (MC PIO2_3 eq_refl) as M3. pose proof (MC PIO2_3T eq_refl) as M3T.
  assert (SB : forall a a' b b', rel f64 false true a a' -> rel f64 false true b b' -> rel f64 false true (a -: b) (a' -: b')) by (intros a a' b b' Ra Rb; exact (rel_fsub f64 false true _ _ _ _ Ra Rb)).
  assert (EX : forall a a', rel f64 false true a a' -> expo a' = expo a) by (intros a a' Ra; rewrite !expo_eq by (apply (rel_bits _ _ _ _ _ Ra)); exact (rel_expf _ _ _ _ Ra)).
  pose proof (rel_fneg f64 false x B) as RX. set (x' := fneg f64 x) in *. clearbody x'.
  generalize dependent (fn *: PIO2_1). generalize dependent (fn' *: PIO2_1). generalize dependent (fn *: PIO2_1T). generalize dependent (fn' *: PIO2_1T).
  generalize dependent (fn *: PIO2_2). generalize dependent (fn' *: PIO2_2). generalize dependent (fn *: PIO2_2T). generalize dependent (fn' *: PIO2_2T).
  generalize dependent (fn *: PIO2_3). generalize dependent (fn' *: PIO2_3). generalize dependent (fn *: PIO2_3T). generalize dependent (fn' *: PIO2_3T).
  clear MC. intros. 
  pose proof (SB _ _ _ _ RX M1) as Rr. set (r := x -: _) in *. set (r' := x' -: _) in *. clearbody r r'.
  pose proof (SB _ _ _ _ Rr M1T) as Ry. set (y := r -: _) in *. set (y' := r' -: _) in *. clearbody y y'. rewrite (EX _ _ Ry).
  destruct (ssub 32 _ (expo y)) as [d|]; [|exact I]. cbn [bind]. destruct (16 <? d); [|cbn [bind]; now apply opp_intro].
  pose proof (SB _ _ _ _ Rr M2) as Rr2. set (r2 := r -: _) in *. set (r2' := r' -: _) in *. clearbody r2 r2'.
  pose proof (SB _ _ _ _ M2T (SB _ _ _ _ (SB _ _ _ _ Rr Rr2) M2)) as Rw2. set (w2 := _ -: ((r -: r2) -: _)) in *. set (w2' := _ -: ((r' -: r2') -: _)) in *. clearbody w2 w2'.
  pose proof (SB _ _ _ _ Rr2 Rw2) as Ry2. set (y2 := r2 -: w2) in *. set (y2' := r2' -: w2') in *. clearbody y2 y2'. rewrite (EX _ _ Ry2).
  destruct (ssub 32 _ (expo y2)) as [d2|]; [|exact I]. cbn [bind]. destruct (49 <? d2); [|cbn [bind]; now apply opp_intro].
  pose proof (SB _ _ _ _ Rr2 M3) as Rr3. set (r3 := r2 -: _) in *. set (r3' := r2' -: _) in *. clearbody r3 r3'.
  pose proof (SB _ _ _ _ M3T (SB _ _ _ _ (SB _ _ _ _ Rr2 Rr3) M3)) as Rw3. set (w3 := _ -: ((r2 -: r3) -: _)) in *. set (w3' := _ -: ((r2' -: r3') -: _)) in *. clearbody w3 w3'.
  pose proof (SB _ _ _ _ Rr3 Rw3) as Ry3. set (y3 := r3 -: w3) in *. set (y3' := r3' -: w3') in *. clearbody y3 y3'.
  cbn [bind]. now apply opp_intro.
Qed.
Lemma two_opp x p t : isbits f64 x -> isbits f64 p -> finite f64 p = true -> isbits f64 t -> finite f64 t = true ->
  rel f64 false true (fst (two_part x p t)) (fst (two_part_neg (fneg f64 x) p t)) /\ rel f64 false true (snd (two_part x p t)) (snd (two_part_neg (fneg f64 x) p t)).
Proof.
  intros Bx Bp Fp Bt Ft. unfold two_part, two_part_neg. cbv zeta. cbn [fst snd]. pose proof (rel_sub_add x _ p Bp Fp (rel_fneg f64 false x Bx)) as RZ. set (z := x -: p) in *. set (z' := _ +: p) in *. clearbody z z'.
  pose proof (rel_sub_add z _ t Bt Ft RZ) as RY. set (y := z -: t) in *. set (y' := _ +: t) in *. clearbody y y'. split; [exact RY|]. apply rel_sub_add; [exact Bt|exact Ft|]. exact (rel_fsub f64 false true _ _ _ _ RZ RY).
Qed.
Lemma pcc_fin c : 1 <= c <= 4 -> isbits f64 (pcc c) /\ finite f64 (pcc c) = true.
Proof. intros H. destruct (pcc_ok c H) as (A & C & _). now split. Qed.
Lemma tcc_fin c : 1 <= c <= 4 -> isbits f64 (tcc c) /\ finite f64 (tcc c) = true.
Proof. intros H. destruct (tcc_ok c H) as (A & _). split; [|exact A]. unfold tcc. destruct (c =? 1); [split; [discriminate|reflexivity]|apply fmul_isbits]. Qed.
Lemma opp_sym p q : opp_red p q -> opp_red q p.
Proof. destruct p as [[[n y0] y1]|], q as [[[n' y0'] y1']|]; cbn [opp_red]; try tauto. intros (E & R0 & R1). split; [lia|]. split; now apply rel_sym. Qed.
Lemma two_red_opp c x : isbits f64 x -> 1 <= c <= 4 -> opp_red (two c x (signbit f64 x)) (two c (fneg f64 x) (negb (signbit f64 x))).
Proof.
  intros Bx Hc. destruct (pcc_fin c Hc) as [Bp Fp]. destruct (tcc_fin c Hc) as [Bt Ft]. unfold two.
  assert (G : forall x, isbits f64 x -> opp_red (Some (c, fst (two_part x (pcc c) (tcc c)), snd (two_part x (pcc c) (tcc c)))) (Some (- c, fst (two_part_neg (fneg f64 x) (pcc c) (tcc c)), snd (two_part_neg (fneg f64 x) (pcc c) (tcc c))))).
  { intros y By. destruct (two_opp y (pcc c) (tcc c) By Bp Fp Bt Ft) as [A C]. cbn [opp_red]. auto. }
  destruct (signbit f64 x); cbn [negb]; [|now apply G]. apply opp_sym. rewrite <- (fneg_invol f64 x) at 3 4. apply G. now apply fneg_bits.
Qed.
Lemma huge_sign b x ix n y0 y1 n' y0' y1' : isbits f64 x -> isbits f64 y0 -> isbits f64 y1 -> isbits f64 y0' -> isbits f64 y1' ->
  rs_rem_pio2_huge b x ix (to_i 32 (Z.shiftr x 63)) = Some (n, y0, y1) -> rs_rem_pio2_huge b (fneg f64 x) ix (to_i 32 (Z.shiftr (fneg f64 x) 63)) = Some (n', y0', y1') ->
  n' = - n /\ rel f64 true true y0 y0' /\ rel f64 true true y1 y1'.
Proof.
  intros B B0 B1 B0' B1'. destruct (fneg_fields f64 x B) as (B' & S' & _ & M'). rewrite (sg64 x B), (sg64 _ B'), S'. unfold rs_rem_pio2_huge.
  replace (Z.land (fneg f64 x) (Z.shiftr (unot 64 1) 12)) with (Z.land x (Z.shiftr (unot 64 1) 12)).
  2:{ change (Z.shiftr (unot 64 1) 12) with (2 ^ 52 - 1). rewrite !land_pow2m1 by lia. symmetry. exact M'. }
  cbv zeta. destruct (ssub 32 _ _) as [d|]; [|discriminate]. cbn [bind]. destruct (rem_pio2_large b _ _ _ _) as [[ty m]|]; [|discriminate]. cbn [bind].
  destruct (arr_get ty 0) as [a|]; [|discriminate]. cbn [bind]. destruct (arr_get ty 1) as [a1|]; [|discriminate]. cbn [bind].
  assert (SN : forall k, sneg 32 m = Some k -> k = - m) by (intros k; unfold sneg, chk; destruct (in_i 32 (- m)); congruence).
  destruct (signbit f64 x); change (to_i 32 (bs true) =? 0) with false; change (to_i 32 (bs false) =? 0) with true; cbn [negb] in *; change (to_i 32 (bs true) =? 0) with false; change (to_i 32 (bs false) =? 0) with true; cbn [negb];
  destruct (sneg 32 m) as [k|]; cbn [bind]; try discriminate; specialize (SN k eq_refl); subst k.
  - intros Q1 Q2. assert (n = - m) as -> by congruence. assert (y0 = fneg f64 a) as -> by congruence. assert (y1 = fneg f64 a1) as -> by congruence. assert (n' = m) as -> by congruence. assert (y0' = a) as -> by congruence. assert (y1' = a1) as -> by congruence.
    split; [lia|]. split; apply rel_sym, rel_fneg; assumption.
  - intros Q1 Q2. assert (n = m) as -> by congruence. assert (y0 = a) as -> by congruence. assert (y1 = a1) as -> by congruence. assert (n' = - m) as -> by congruence. assert (y0' = fneg f64 a) as -> by congruence. assert (y1' = fneg f64 a1) as -> by congruence.
    split; [lia|]. split; apply rel_fneg; assumption.
Qed.
Lemma red64_nz X n y0 y1 : red64 X n y0 y1 -> val f64 y0 <> 0%R.
Proof. intros (_ & _ & _ & _ & _ & _ & E) Z0. rewrite Z0, Rabs_R0 in E. pose proof (bpow_gt_0 radix2 (-95)). lra. Qed.
Lemma l_med : val f64 0x413921fb00000000 = (1647099 / 1)%R. Proof. lit. Qed.
Theorem rem_pio2_opp b x : isbits f64 x -> 0x3fe921fc <= a64 x / 2 ^ 32 < 0x7ff00000 ->
  exists n y0 y1 y0' y1' k, rs_rem_pio2_gen b x = Some (n, y0, y1) /\ rs_rem_pio2_gen b (fneg f64 x) = Some (- n, y0', y1') /\ red64 (val f64 x) k y0 y1 /\ k mod 8 = n mod 8 /\
    rel f64 true true y0 y0' /\ rel f64 false true y1 y1'.
Proof.
  intros B H. destruct (fneg_fields f64 x B) as (B' & S' & _). pose proof (a64_fneg x B) as EA.
  destruct (rem_pio2_red b x B H) as (n & y0 & y1 & k & E & R & M & N). destruct (rem_pio2_red b (fneg f64 x) B' ltac:(rewrite EA; exact H)) as (n' & y0' & y1' & k' & E' & R' & M' & N').
  exists n, y0, y1, y0', y1', k.
  assert (G : n' = - n /\ rel f64 false true y0 y0' /\ rel f64 false true y1 y1').
  2:{ destruct G as (-> & R0 & R1). split; [exact E|]. split; [exact E'|]. split; [exact R|]. split; [exact M|]. split; [|exact R1]. apply rel_strict; [exact R0|]. intros _. exact (red64_nz _ _ _ _ R). }
  destruct (Z.lt_ge_cases (a64 x / 2 ^ 32) 0x413921fb) as [L | L].
  - enough (G : opp_red (rs_rem_pio2_gen b x) (rs_rem_pio2_gen b (fneg f64 x))) by (rewrite E, E' in G; exact G).
    clear E E' R R' M M' N N'. assert (F : finite f64 x = true). { rewrite (fin64 x B). apply Z.ltb_lt. assert (a64 x < 0x413921fb * 2 ^ 32) by (apply div32; exact L). lia. }
    assert (MED : opp_red (rs_rem_pio2_medium x (a64 x / 2 ^ 32)) (rs_rem_pio2_medium (fneg f64 x) (a64 x / 2 ^ 32))).
    { apply medium_opp; [exact B|exact F|]. apply div32 in L. destruct (absval64 0 0x413921fb00000000 x B ltac:(lia) ltac:(pose proof (a64_nn x); lia) ltac:(lia)) as [_ A]. rewrite l_med in A. lra. }
    unfold rs_rem_pio2_gen. cbv zeta. rewrite (ix64 x B), (ix64 _ B'), EA, (sg64 x B), (sg64 _ B'), S'. set (ix := a64 x / 2 ^ 32) in *.
    assert (ES : forall s, to_i 32 (bs s) =? 0 = negb s) by (intros []; reflexivity). rewrite !ES. rewrite negb_involutive.
    pose proof (fun c => two_red_opp c x B) as TW. unfold two, pcc, tcc in TW.
    assert (FL : forall c, 1 <= c <= 4 -> opp_red (if negb (signbit f64 x)
      then Some (c, fst (two_part x (if c =? 1 then PIO2_1 else of_int f64 c *: PIO2_1) (if c =? 1 then PIO2_1T else of_int f64 c *: PIO2_1T)), snd (two_part x (if c =? 1 then PIO2_1 else of_int f64 c *: PIO2_1) (if c =? 1 then PIO2_1T else of_int f64 c *: PIO2_1T)))
      else Some (- c, fst (two_part_neg x (if c =? 1 then PIO2_1 else of_int f64 c *: PIO2_1) (if c =? 1 then PIO2_1T else of_int f64 c *: PIO2_1T)), snd (two_part_neg x (if c =? 1 then PIO2_1 else of_int f64 c *: PIO2_1) (if c =? 1 then PIO2_1T else of_int f64 c *: PIO2_1T))))
      (if signbit f64 x
      then Some (c, fst (two_part (fneg f64 x) (if c =? 1 then PIO2_1 else of_int f64 c *: PIO2_1) (if c =? 1 then PIO2_1T else of_int f64 c *: PIO2_1T)), snd (two_part (fneg f64 x) (if c =? 1 then PIO2_1 else of_int f64 c *: PIO2_1) (if c =? 1 then PIO2_1T else of_int f64 c *: PIO2_1T)))
      else Some (- c, fst (two_part_neg (fneg f64 x) (if c =? 1 then PIO2_1 else of_int f64 c *: PIO2_1) (if c =? 1 then PIO2_1T else of_int f64 c *: PIO2_1T)), snd (two_part_neg (fneg f64 x) (if c =? 1 then PIO2_1 else of_int f64 c *: PIO2_1) (if c =? 1 then PIO2_1T else of_int f64 c *: PIO2_1T))))).
    { intros c Hc. specialize (TW c Hc). destruct (signbit f64 x); cbn [negb] in *; exact TW. }
    clear TW. pose proof (FL 1 ltac:(lia)) as F1. pose proof (FL 2 ltac:(lia)) as F2. pose proof (FL 3 ltac:(lia)) as F3. pose proof (FL 4 ltac:(lia)) as F4. clear FL.
    destruct (ix <=? 0x400f6a7a); [destruct (Z.land ix 0xfffff =? 0x921fb); [exact MED|]; destruct (ix <=? 0x4002d97c); [exact F1|exact F2]|].
    destruct (ix <=? 0x401c463b); [destruct (ix <=? 0x4015fdbc); [destruct (ix =? 0x4012d97c); [exact MED|exact F3]|destruct (ix =? 0x401921fb); [exact MED|exact F4]]|].
    destruct (Z.ltb_spec ix 0x413921fb); [exact MED|lia].
  - assert (G : n' = - n /\ rel f64 true true y0 y0' /\ rel f64 true true y1 y1'). 2:{ destruct G as (A & C & D). split; [exact A|]. split; eapply rel_weaken; eassumption. }
    apply (huge_sign b x (a64 x / 2 ^ 32)); [exact B|apply R|apply R|apply R'|apply R'| |].
    + revert E. unfold rs_rem_pio2_gen. cbv zeta. rewrite (ix64 x B).
      destruct (Z.leb_spec (a64 x / 2 ^ 32) 0x400f6a7a); [lia|]. destruct (Z.leb_spec (a64 x / 2 ^ 32) 0x401c463b); [lia|]. destruct (Z.ltb_spec (a64 x / 2 ^ 32) 0x413921fb); [lia|]. destruct (Z.leb_spec 0x7ff00000 (a64 x / 2 ^ 32)); [lia|]. intros E; exact E.
    + revert E'. unfold rs_rem_pio2_gen. cbv zeta. rewrite (ix64 _ B'), EA.
      destruct (Z.leb_spec (a64 x / 2 ^ 32) 0x400f6a7a); [lia|]. destruct (Z.leb_spec (a64 x / 2 ^ 32) 0x401c463b); [lia|]. destruct (Z.ltb_spec (a64 x / 2 ^ 32) 0x413921fb); [lia|]. destruct (Z.leb_spec 0x7ff00000 (a64 x / 2 ^ 32)); [lia|]. intros EE; exact EE.
Qed.
(** ** the kernels *)
Ltac rl := lazymatch goal with
  | |- rel f64 false false (fmul _ _ _) _ => apply (rel_fmul f64 false false false); rl
  | |- rel f64 false false (fadd _ _ _) _ => apply (rel_fadd f64 false false); rl
  | |- rel f64 false false (fsub _ _ _) _ => apply (rel_fsub f64 false false); rl
  | |- rel f64 false false ?c ?c => apply c_rel; reflexivity
  | |- _ => assumption
  end.
Lemma k_sin_rel x x' y y' iy : rel f64 false true x x' -> rel f64 false true y y' -> rel f64 false true (rs_k_sin x y iy) (rs_k_sin x' y' iy).
Proof.
  intros Rx Ry. unfold rs_k_sin. cbv zeta. pose proof (rel_weaken _ _ _ _ _ (rel_square _ _ _ _ _ Rx)) as RZ. set (z := x *: x) in *. set (z' := x' *: x') in *. clearbody z z'.
  assert (RR : rel f64 false false ((rs_k_sin_S2 +: (z *: (rs_k_sin_S3 +: (z *: rs_k_sin_S4)))) +: ((z *: (z *: z)) *: (rs_k_sin_S5 +: (z *: rs_k_sin_S6)))) ((rs_k_sin_S2 +: (z' *: (rs_k_sin_S3 +: (z' *: rs_k_sin_S4)))) +: ((z' *: (z' *: z')) *: (rs_k_sin_S5 +: (z' *: rs_k_sin_S6))))) by rl.
  set (r := _ +: ((z *: _) *: _)) in *. set (r' := _ +: ((z' *: _) *: _)) in *. clearbody r r'.
  pose proof (rel_fmul f64 false false true _ _ _ _ RZ Rx) as RV. cbn [xorb] in RV. set (v := z *: x) in *. set (v' := z' *: x') in *. clearbody v v'.
  destruct (iy =? 0).
  - apply (rel_fadd f64 false true); [exact Rx|]. apply (rel_fmul f64 false true false); [exact RV|]. rl.
  - apply (rel_fsub f64 false true); [exact Rx|]. apply (rel_fsub f64 false true); [|apply (rel_fmul f64 false true false); [exact RV|rl]].
    apply (rel_fsub f64 false true); [|exact Ry]. apply (rel_fmul f64 false false true); [exact RZ|]. apply (rel_fsub f64 false true); [|apply (rel_fmul f64 false true false); assumption].
    apply (rel_fmul f64 false false true); [rl|exact Ry].
Qed.
Lemma k_cos_rel x x' y y' : rel f64 false true x x' -> rel f64 false true y y' -> rel f64 false false (rs_k_cos x y) (rs_k_cos x' y').
Proof.
  intros Rx Ry. unfold rs_k_cos. cbv zeta. pose proof (rel_weaken _ _ _ _ _ (rel_square _ _ _ _ _ Rx)) as RZ. pose proof (rel_fmul f64 false true true _ _ _ _ Rx Ry) as RXY. cbn [xorb] in RXY.
  set (z := x *: x) in *. set (z' := x' *: x') in *. set (m := x *: y) in *. set (m' := x' *: y') in *. clearbody z z' m m'. rl.
Qed.
Lemma faithful_nz v r : faithful f64 v r -> (bpow radix2 (-200) <= Rabs v)%R -> val f64 r <> 0%R.
Proof.
  intros (_ & _ & D) H.
  assert (G : forall v, (bpow radix2 (-200) <= v)%R -> (bpow radix2 (-200) <= below f64 v)%R /\ (bpow radix2 (-200) <= above f64 v)%R).
  { intros w Hv. assert (GF : generic_format radix2 (FLT_exp (1 - bias f64 - mw f64) (mw f64 + 1)) (bpow radix2 (-200))) by (apply generic_format_bpow; vm_compute; discriminate).
    assert (VE : Valid_exp (FLT_exp (1 - bias f64 - mw f64) (mw f64 + 1))) by apply fmt_valid_exp.
    split; apply round_ge_generic; try typeclasses eauto; assumption. }
  pose proof (bpow_gt_0 radix2 (-200)) as B40. destruct (Rle_lt_dec 0 v) as [Q | Q].
  - rewrite Rabs_pos_eq in H by exact Q. destruct (G _ H). destruct D as [-> | ->]; lra.
  - rewrite Rabs_left in H by exact Q. destruct (G _ H) as [G1 G2]. unfold below, above in *. rewrite round_DN_opp in G1. rewrite round_UP_opp in G2. destruct D as [-> | ->]; lra.
Qed.
Lemma strict_neg v a b : faithful f64 v a -> (bpow radix2 (-200) <= Rabs v)%R -> rel f64 false true a b -> rel f64 true true a b.
Proof. intros FA H R. apply rel_strict; [exact R|]. intros _. now apply (faithful_nz v). Qed.
Lemma strict_eq v a b : faithful f64 v a -> (bpow radix2 (-200) <= Rabs v)%R -> rel f64 false false a b -> b = a.
Proof. intros FA H R. apply (rel_eq f64 false a b); [apply rel_strict; [exact R|]; intros _; now apply (faithful_nz v)|apply finite_not_nan, FA]. Qed.
Lemma strict_opp v a b : faithful f64 v a -> (bpow radix2 (-200) <= Rabs v)%R -> rel f64 false true a b -> b = fneg f64 a.
Proof. intros FA H R. apply (rel_eq f64 true a b); [apply (strict_neg v); assumption|apply finite_not_nan, FA]. Qed.
Lemma sin_big r : (bpow radix2 (-100) <= Rabs r <= 0.8)%R -> (bpow radix2 (-200) <= Rabs (sin r))%R.
Proof.
  intros [H1 H2]. pose proof (sin_low_abs r ltac:(lra)) as L. pose proof (Rabs_pos r). set (t := Rabs r) in *. assert (t * t <= 0.64)%R by nra. assert (t * t * t <= 0.64 * t)%R by nra.
  apply Rle_trans with (bpow radix2 (-101)); [apply bpow_le; lia|]. assert (bpow radix2 (-100) = 2 * bpow radix2 (-101))%R by (change (-100) with (1 + -101); rewrite bpow_plus; reflexivity). lra.
Qed.
Lemma cos_big r : (Rabs r <= 0.8)%R -> (bpow radix2 (-200) <= Rabs (cos r))%R.
Proof.
  intros H. assert (E2 : (r * r = Rabs r * Rabs r)%R) by (rewrite <- Rabs_mult, Rabs_pos_eq; [reflexivity|nra]). pose proof (Rabs_pos r). assert (r * r <= 0.64)%R by nra.
  pose proof (cos_quad r ltac:(lra)) as [Q1 _]. apply Rle_trans with (bpow radix2 (-1)); [apply bpow_le; lia|]. change (bpow radix2 (-1)) with (/ 2)%R. rewrite Rabs_pos_eq; lra.
Qed.
Lemma red64_r X n y0 y1 : red64 X n y0 y1 -> (bpow radix2 (-100) <= Rabs (X - IZR n * (PI / 2)) <= 0.8)%R.
Proof.
  intros (_ & _ & _ & _ & E1 & E2 & E3). set (r := (X - IZR n * (PI / 2))%R) in *. clearbody r. change (bpow radix2 (-64)) with (/ 18446744073709551616)%R in E1. assert (U : (u <= / 1000)%R) by lra. 
  set (A := val f64 y0) in *. set (C := val f64 y1) in *. clearbody A C. pose proof (Rabs_pos A) as PA. assert (UC : (Rabs C <= / 100 * Rabs A)%R) by nra.
  assert (T1 : (Rabs r <= Rabs A + Rabs C + Rabs (A + C - r))%R) by (unfold Rabs; repeat destruct Rcase_abs; lra). assert (T2 : (Rabs A <= Rabs r + Rabs C + Rabs (A + C - r))%R) by (unfold Rabs; repeat destruct Rcase_abs; lra).
  split; [|lra]. assert (bpow radix2 (-95) = 32 * bpow radix2 (-100))%R by (change (-95) with (5 + -100); rewrite bpow_plus; reflexivity). pose proof (bpow_gt_0 radix2 (-100)). lra.
Qed.
Lemma sel64_opp X n n' y0 y1 y0' y1' : red64 X n y0 y1 -> n' mod 4 = (- n) mod 4 -> rel f64 true true y0 y0' -> rel f64 false true y1 y1' ->
  sel64S n' y0' y1' = fneg f64 (sel64S n y0 y1) /\ sel64C n' y0' y1' = sel64C n y0 y1.
Proof.
  intros R M R0 R1. apply rel_weaken in R0. destruct (red64_kernels _ _ _ _ R) as [FS FC]. pose proof (red64_r _ _ _ _ R) as RB.
  pose proof (strict_opp _ _ _ FS (sin_big _ RB) (k_sin_rel _ _ _ _ 1 R0 R1)) as ES. pose proof (strict_eq _ _ _ FC (cos_big _ (proj2 RB)) (k_cos_rel _ _ _ _ R0 R1)) as EC.
  unfold sel64S, sel64C. rewrite M, ES, EC. clear ES EC. assert (BS := proj1 FS). assert (BC := proj1 FC). clear FS FC. set (s := rs_k_sin y0 y1 1) in *. set (c := rs_k_cos y0 y1) in *. clearbody s c.
  assert (D : n mod 4 = 0 /\ (- n) mod 4 = 0 \/ n mod 4 = 1 /\ (- n) mod 4 = 3 \/ n mod 4 = 2 /\ (- n) mod 4 = 2 \/ n mod 4 = 3 /\ (- n) mod 4 = 1).
  { pose proof (Z.mod_pos_bound n 4 ltac:(lia)). destruct (Z.eq_dec (n mod 4) 0) as [Q | Q]; [rewrite Z.mod_opp_l_z by lia|rewrite Z.mod_opp_l_nz by lia]; lia. }
  destruct D as [[-> ->] | [[-> ->] | [[-> ->] | [-> ->]]]]; cbn [Z.eqb Pos.eqb]; rewrite ?fneg_fneg by assumption; auto.
Qed.
Lemma mod4_opp n k : k mod 8 = n mod 8 -> (- n) mod 4 = (- k) mod 4.
Proof. intros H. apply mod84 in H. pose proof (Z.div_mod n 4 ltac:(lia)). pose proof (Z.div_mod k 4 ltac:(lia)). replace (- n) with (- k + (k / 4 - n / 4) * 4) by lia. apply Z.mod_add. lia. Qed.
Lemma sin_red x n y0 y1 : isbits f64 x -> 0x3fe921fc <= a64 x / 2 ^ 32 < 0x7ff00000 -> rs_rem_pio2_gen true x = Some (n, y0, y1) -> rs_sin x = Some (sel64S n y0 y1) /\ rs_cos x = Some (sel64C n y0 y1).
Proof.
  intros B H E. unfold rs_sin, rs_cos, rs_rem_pio2. cbv zeta. rewrite (ix64 x B), E. cbn [bind]. rewrite land3. unfold sel64S, sel64C.
  destruct (Z.leb_spec (a64 x / 2 ^ 32) 0x3fe921fb); [lia|]. destruct (Z.leb_spec 0x7ff00000 (a64 x / 2 ^ 32)); [lia|].
  destruct (n mod 4 =? 0), (n mod 4 =? 1), (n mod 4 =? 2); split; reflexivity.
Qed.
Lemma sel64_mod n k y0 y1 : k mod 4 = n mod 4 -> sel64S n y0 y1 = sel64S k y0 y1 /\ sel64C n y0 y1 = sel64C k y0 y1.
Proof. intros H. unfold sel64S, sel64C. rewrite H. split; reflexivity. Qed.
Lemma big_opp x : isbits f64 x -> 0x3fe921fc <= a64 x / 2 ^ 32 < 0x7ff00000 -> exists s c, rs_sin x = Some s /\ rs_cos x = Some c /\ rs_sin (fneg f64 x) = Some (fneg f64 s) /\ rs_cos (fneg f64 x) = Some c /\ isbits f64 s /\ isbits f64 c.
Proof.
  intros B H. destruct (rem_pio2_opp true x B H) as (n & y0 & y1 & y0' & y1' & k & E & E' & R & M & R0 & R1).
  destruct (sin_red x n y0 y1 B H E) as [ES EC]. destruct (sin_red (fneg f64 x) (- n) y0' y1' ltac:(now apply fneg_bits) ltac:(rewrite a64_fneg by exact B; exact H) E') as [ES' EC'].
  destruct (sel64_mod n k y0 y1 (eq_sym (mod84 _ _ M))) as [Q1 Q2]. destruct (sel64_opp _ _ _ _ _ _ _ R (mod4_opp n k M) R0 R1) as [P1 P2].
  exists (sel64S k y0 y1), (sel64C k y0 y1). rewrite ES, EC, ES', EC', Q1, Q2, P1, P2. destruct (sel64_faithful _ _ _ _ R) as [(A & _) (C & _)]. repeat split; try reflexivity; try apply A; apply C.
Qed.
Lemma inf_sub_nan x : isbits f64 x -> isnan f64 x = false -> 0x7ff00000 <= a64 x / 2 ^ 32 -> isnan f64 (x -: x) = true.
Proof.
  intros B NN H. assert (I : isinf f64 x = true).
  { destruct (fin_or_inf f64 x NN) as [F | I]; [|exact I]. pose proof (fin_hi x B F). lia. }
  pose proof (fsub_inf_inf f64 x x I I) as K. destruct (signbit f64 x); cbn [Bool.eqb negb] in K; exact K.
Qed.
Lemma inf_sub_rel x s : isbits f64 x -> isnan f64 x = false -> 0x7ff00000 <= a64 x / 2 ^ 32 -> rel f64 true s (x -: x) (fneg f64 x -: fneg f64 x).
Proof.
  intros B NN H. apply rel_both_nan; [apply fsub_isbits|apply fsub_isbits|now apply inf_sub_nan|]. apply inf_sub_nan; [now apply fneg_bits|rewrite nan_fneg; assumption|now rewrite a64_fneg].
Qed.
Lemma zero_opp : rel f64 false true 0 0.
Proof. apply rel_val; [split; [lia|reflexivity]|split; [lia|reflexivity]|reflexivity|reflexivity|]. rewrite zero64. cbn [sval]. lra. Qed.
Lemma sin_odd : odd_core f64 rs_sin.
Proof.
  intros x r B NN E. destruct (Z_lt_le_dec (a64 x / 2 ^ 32) 0x3fe921fc) as [H | H].
  - assert (F : finite f64 x = true). { rewrite (fin64 x B). apply Z.ltb_lt. apply div32 in H. lia. }
    revert E. unfold rs_sin. cbv zeta. rewrite (ix64 x B), (ix64 _ (fneg_bits _ _ B)), (a64_fneg x B). destruct (Z.leb_spec (a64 x / 2 ^ 32) 0x3fe921fb); [|lia]. apply div32 in H.
    destruct (Z.ltb_spec (a64 x / 2 ^ 32) 0x3e500000) as [Q | Q].
    + intros E. injection E as <-. eexists. split; [reflexivity|]. now apply rel_fneg.
    + intros E. assert (Q' : 0x3e50000000000000 <= a64 x) by (destruct (Z_lt_le_dec (a64 x) (0x3e500000 * 2 ^ 32)) as [K | K]; [apply div32 in K; lia|exact K]).
      pose proof (no_red x 0x3e50000000000000 B F ltac:(lia) Q' ltac:(lia)) as NR. pose proof (k_sin_head_ok x B F NR) as FA.
      assert (r = rs_k_sin x 0 0) as -> by congruence. eexists. split; [reflexivity|]. apply (strict_neg _ _ _ FA); [apply sin_big; lra|]. apply k_sin_rel; [now apply rel_fneg|exact zero_opp].
  - destruct (Z_lt_le_dec (a64 x / 2 ^ 32) 0x7ff00000) as [L | L].
    + destruct (big_opp x B ltac:(lia)) as (s & c & ES & _ & ES' & _ & Bs & _). assert (r = s) as -> by congruence. eexists. split; [exact ES'|]. now apply rel_fneg.
    + revert E. unfold rs_sin. cbv zeta. rewrite (ix64 x B), (ix64 _ (fneg_bits _ _ B)), (a64_fneg x B). destruct (Z.leb_spec (a64 x / 2 ^ 32) 0x3fe921fb); [lia|]. destruct (Z.leb_spec 0x7ff00000 (a64 x / 2 ^ 32)); [|lia].
      intros E. injection E as <-. eexists. split; [reflexivity|]. exact (inf_sub_rel x true B NN L).
Qed.
Lemma cos_even : even_core f64 rs_cos.
Proof.
  intros x r B NN E. destruct (Z_lt_le_dec (a64 x / 2 ^ 32) 0x3fe921fc) as [H | H].
  - assert (F : finite f64 x = true). { rewrite (fin64 x B). apply Z.ltb_lt. apply div32 in H. lia. }
    revert E. unfold rs_cos, rs_cos_1. cbv zeta. rewrite (ix64 x B), (ix64 _ (fneg_bits _ _ B)), (a64_fneg x B). destruct (Z.leb_spec (a64 x / 2 ^ 32) 0x3fe921fb); [|lia]. apply div32 in H.
    destruct (Z.ltb_spec (a64 x / 2 ^ 32) 0x3e46a09e) as [Q | Q].
    + apply div32 in Q. rewrite (cos_tiny x B) by lia. rewrite (cos_tiny _ (fneg_bits _ _ B)) by (rewrite a64_fneg by exact B; lia). change (0 =? 0) with true. cbv iota.
      intros E. injection E as <-. eexists. split; [reflexivity|]. apply c_rel. reflexivity.
    + intros E. assert (Q' : 0x3e46a09e00000000 <= a64 x) by (destruct (Z_lt_le_dec (a64 x) (0x3e46a09e * 2 ^ 32)) as [K | K]; [apply div32 in K; lia|exact K]).
      pose proof (no_red x 0x3e46a09e00000000 B F ltac:(lia) Q' ltac:(lia)) as NR.
      assert (FA : faithful f64 (cos (val f64 x)) (rs_k_cos x 0)).
      { apply k_cos_ok; [exact B|exact F|split; [lia|reflexivity]|reflexivity|exact NR| |].
        - rewrite zero64, Rabs_R0. pose proof (Rabs_pos (val f64 x)). lra.
        - rewrite zero64. replace (val f64 x + 0 - val f64 x)%R with 0%R by ring. rewrite Rabs_R0. pose proof (Rabs_pos (val f64 x)). lra. }
      assert (r = rs_k_cos x 0) as -> by congruence. eexists. split; [reflexivity|].
      apply rel_strict; [|intros _; apply (faithful_nz _ _ FA); apply cos_big; lra]. apply k_cos_rel; [now apply rel_fneg|exact zero_opp].
  - destruct (Z_lt_le_dec (a64 x / 2 ^ 32) 0x7ff00000) as [L | L].
    + destruct (big_opp x B ltac:(lia)) as (s & c & _ & EC & _ & EC' & _ & Bc). assert (r = c) as -> by congruence. eexists. split; [exact EC'|]. now apply rel_refl.
    + revert E. unfold rs_cos, rs_cos_1. cbv zeta. rewrite (ix64 x B), (ix64 _ (fneg_bits _ _ B)), (a64_fneg x B). destruct (Z.leb_spec (a64 x / 2 ^ 32) 0x3fe921fb); [lia|]. destruct (Z.leb_spec 0x7ff00000 (a64 x / 2 ^ 32)); [|lia].
      intros E. injection E as <-. eexists. split; [reflexivity|]. exact (inf_sub_rel x false B NN L).
Qed.
