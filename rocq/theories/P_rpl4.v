(** rem_pio2_large: from digits to the result, totality (C38). *)
From Coq Require Import ZArith Reals Lia Lra Bool List Psatz.
From Flocq Require Import Core.
From Verif Require Import Base Spec SpecFun Format Ieee M_basic M_scalbn M_elib M_rempio2 P_ieee P_elem2 P_ival P_cf P_fx P_rpl P_rpl2 P_rpl3.
Import ListNotations.
Open Scope Z_scope.
Open Scope fl_scope.

(** Trailing digits are dropped, or the integer part becomes one or two more digits: the value [Q * 2^(q0 - 24 jz)] is kept. *)
Lemma rpl_chop_ok z Zi q0 jz iq : -27 <= q0 <= 2 -> 1 <= jz <= 10 -> fx z Zi (Z.min q0 0) -> (0 <= Zi <= 2 ^ (- Z.min q0 0) /\ (0 <= q0 -> Zi = 0)) -> dig iq jz ->
  0 < Zi * 2 ^ (24 * jz) + Iv iq (Z.to_nat jz) ->
  exists jz' q0' iq', rpl_chop z jz q0 iq = Some (jz', q0', iq') /\ 0 <= jz' <= 11 /\ q0' - 24 * jz' = q0 - 24 * jz /\ dig iq' (jz' + 1) /\
    nz iq' jz' <> 0 /\ Iv iq' (Z.to_nat (jz' + 1)) = Zi * 2 ^ (24 * jz) + Iv iq (Z.to_nat jz) /\
    (Zi <> 0 -> jz <= jz') /\ (Zi = 0 -> forall i, 0 <= i < jz -> nz iq i <> 0 -> i <= jz').
Proof.
  intros Hq Hz Fz RZ (L & Hd) HQ. unfold rpl_chop. rewrite (fx_eq0 _ _ _ Fz). destruct (Z.eqb_spec Zi 0) as [Z0|Z0].
  - rewrite usub_ok by lia. cbn [bind]. rewrite ssub_ok by (p31; lia). cbn [bind].
    rewrite Z0, Z.mul_0_l, Z.add_0_l in HQ. destruct (Iv_nonzero iq (Z.to_nat jz) ltac:(lia)) as (i0 & Hi0 & Ni0). rewrite Z2Nat.id in Hi0 by lia.
    match goal with |- context [run _ ?st _] =>
      destruct (run_rule (fun s : Z * Z => i0 <= fst s < jz /\ snd s - 24 * fst s = q0 - 24 * jz /\ forall i, fst s < i < jz -> nz iq i = 0) (fun s => fst s)
        (fun r : Z * Z * list Z => let '(j, q1, l) := r in l = iq /\ i0 <= j < jz /\ q1 - 24 * j = q0 - 24 * jz /\ nz iq j <> 0 /\ forall i, j < i < jz -> nz iq i = 0)
        st) with (p := 25%positive) (s := (jz - 1, q0 - 24)) as (r & E & H) end.
    + intros [j q1] (H1 & H2 & H3). cbn [fst snd] in *. rewrite arr_get_ok by lia. cbn [bind]. destruct (Z.eqb_spec (nz iq j) 0) as [E|E].
      * assert (i0 <> j) by (intros ->; contradiction). rewrite usub_ok by lia. cbn [bind]. rewrite ssub_ok by (p31; lia). cbn [bind].
        eexists; split; [reflexivity|]. cbv iota. cbn [fst snd]. split; [|lia]. split; [lia|]. split; [lia|].
        intros i Hi. destruct (Z.eq_dec i j) as [->|]; [exact E|]. apply H3; lia.
      * eexists; split; [reflexivity|]. cbv beta iota. auto.
    + cbn [fst snd]. split; [lia|]. split; [lia|]. intros; lia.
    + cbn [fst]. lia.
    + rewrite E. destruct r as [[j q1] l]. destruct H as (-> & H1 & H2 & H3 & H4). exists j, q1, iq.
      split; [reflexivity|]. split; [lia|]. split; [exact H2|]. split; [split; [exact L|intros; apply Hd; lia]|]. split; [exact H3|]. split.
      { rewrite Z0, Z.mul_0_l, Z.add_0_l. symmetry. apply Iv_zeros; [lia|]. intros; apply H4; lia. }
      split; [contradiction|]. intros _ i Hi Ni. destruct (Z_le_gt_dec i j); [assumption|]. exfalso. apply Ni, H4. lia.
  - assert (Q : q0 < 0) by lia. rewrite Z.min_l in * by lia. rewrite Z.mul_comm in HQ.
    assert (Pq : 0 < 2 ^ (- q0) <= 2 ^ 27) by (split; [apply Z.pow_pos_nonneg; lia|apply Z.pow_le_mono_r; lia]).
    unfold sneg. rewrite chk_ok by (p31; lia). cbn [bind].
    destruct (fx_scalbn z Zi q0 (- q0) Fz ltac:(lia) ltac:(lia) ltac:(lia)) as (z1 & -> & F1). cbn [bind]. rewrite Z.add_opp_diag_r in F1.
    assert (F24 : fx x1p24 (2 ^ 24) 0) by (apply (fx_cast _ (1 * 2 ^ 24) 0); [apply fx_shift; [lia|exact fx_x1p24]|lia|lia]).
    rewrite (fx_ge _ _ _ _ _ F1 F24).
    assert (E24 : 2 ^ (24 * (jz + 1)) = 2 ^ 24 * 2 ^ (24 * jz)) by (rewrite <- Z.pow_add_r by lia; f_equal; lia).
    destruct (Z.leb_spec (2 ^ 24) Zi) as [G|G].
    + set (h := Zi / 2 ^ 24). assert (Hh : 1 <= h < 16) by (unfold h; split; [apply Z.div_le_lower_bound; lia|apply Z.div_lt_upper_bound; lia]).
      assert (Hdm := Z.div_mod Zi (2 ^ 24) ltac:(lia)). fold h in Hdm. assert (Hmb := Z.mod_pos_bound Zi (2 ^ 24) ltac:(lia)).
      assert (G1 : fx (x1p_24 *: z1) Zi (- 24)) by (apply (fx_cast _ (1 * Zi) (-24 + 0)); [apply fx_mul; [exact fx_x1p_24|exact F1|lia|lia]|lia|lia]).
      assert (T1 : to_i32 f64 (x1p_24 *: z1) = h) by (apply fx_trunc; [lia|lia|exact G1|fold h; lia]).
      rewrite T1. cbv zeta.
      assert (F2 : fx (of_int f64 h) h 0) by (apply fx_int; lia).
      assert (F3 : fx (x1p24 *: of_int f64 h) (h * 2 ^ 24) 0).
      { apply fx_shift; [lia|]. apply (fx_cast _ (1 * h) (24 + 0)); [apply fx_mul; [exact fx_x1p24|exact F2|lia|lia]|lia|lia]. }
      assert (F4 : fx (z1 -: (x1p24 *: of_int f64 h)) (Zi mod 2 ^ 24) 0).
      { apply (fx_cast _ (Zi - h * 2 ^ 24) 0); [apply fx_sub; try assumption; lia|lia|lia]. }
      rewrite (fx_toint _ (Zi mod 2 ^ 24) ltac:(lia) F4). rewrite (fx_toint _ h ltac:(lia) F2).
      destruct (arr_set_ok iq jz (Zi mod 2 ^ 24) ltac:(lia)) as (l1 & -> & L1 & K1). cbn [bind]. rewrite uadd_ok by (p31; lia). cbn [bind].
      rewrite sadd_ok by (p31; lia). cbn [bind]. destruct (arr_set_ok l1 (jz + 1) h ltac:(lia)) as (l2 & -> & L2 & K2). cbn [bind].
      assert (K : forall k, 0 <= k -> nz l2 k = if k =? jz + 1 then h else if k =? jz then Zi mod 2 ^ 24 else nz iq k).
      { intros k Hk. rewrite K2 by lia. destruct (k =? jz + 1); [reflexivity|]. apply K1; lia. }
      exists (jz + 1), (q0 + 24), l2. split; [reflexivity|]. split; [lia|]. split; [lia|]. split; [|split; [|split; [|split; [lia|contradiction]]]].
      * split; [lia|]. intros i Hi. rewrite K by lia. destruct (Z.eqb_spec i (jz + 1)); [lia|]. destruct (Z.eqb_spec i jz); [lia|]. apply Hd; lia.
      * rewrite K, Z.eqb_refl by lia. lia.
      * rewrite Iv_top by lia. replace (jz + 1 + 1 - 1) with (jz + 1) by lia. rewrite Iv_top by lia. replace (jz + 1 - 1) with jz by lia.
        rewrite !K by lia. rewrite !Z.eqb_refl. destruct (Z.eqb_spec jz (jz + 1)); [lia|]. rewrite E24.
        rewrite (Iv_ext l2 iq) by (intros i Hi; rewrite K by lia; destruct (Z.eqb_spec i (jz + 1)); [lia|]; destruct (Z.eqb_spec i jz); [lia|reflexivity]).
        rewrite Hdm at 2. ring.
    + rewrite (fx_toint _ Zi ltac:(lia) F1). destruct (arr_set_ok iq jz Zi ltac:(lia)) as (l1 & -> & L1 & K1). cbn [bind].
      exists jz, q0, l1. split; [reflexivity|]. split; [lia|]. split; [lia|]. split; [|split; [|split; [|split; [lia|contradiction]]]].
      * split; [lia|]. intros i Hi. rewrite K1 by lia. destruct (Z.eqb_spec i jz); [lia|]. apply Hd; lia.
      * rewrite K1, Z.eqb_refl by lia. exact Z0.
      * rewrite Iv_top by lia. replace (jz + 1 - 1) with jz by lia. rewrite K1, Z.eqb_refl by lia.
        rewrite (Iv_ext l1 iq) by (intros i Hi; rewrite K1 by lia; destruct (Z.eqb_spec i jz); [lia|reflexivity]). ring.
Qed.

(** The digits become exact floats. *)
Lemma rpl_back_ok q iq jz q0 : Z.of_nat (length q) = 20 -> 0 <= jz <= 11 -> dig iq (jz + 1) -> -300 <= q0 <= 300 ->
  exists q', rpl_back q iq jz q0 = Some q' /\ Z.of_nat (length q') = 20 /\ forall i, 0 <= i <= jz -> fx (nz q' i) (nz iq i) (q0 - 24 * (jz - i)).
Proof.
  intros Lq Hz (Li & Hd) Hq. unfold rpl_back.
  destruct (fx_scalbn c_one 1 0 q0 fx_one ltac:(lia) ltac:(lia) ltac:(lia)) as (w & -> & Hw). cbn [bind]. rewrite Z.add_0_l in Hw.
  fordn (fun i (s : list Z * Z) => Z.of_nat (length (fst s)) = 20 /\ fx (snd s) 1 (q0 - 24 * (jz - i)) /\
     forall k, i < k <= jz -> fx (nz (fst s) k) (nz iq k) (q0 - 24 * (jz - k))) as (s & E & H1 & H2 & H3); [lia| | |rewrite E].
  - cbn [fst snd]. split; [exact Lq|]. split; [apply (fx_cast _ 1 q0); [exact Hw|lia|lia]|intros; lia].
  - intros i [q1 w1] Hi (H1 & H2 & H3). cbn [fst snd] in *. rewrite arr_get_ok by lia. cbn [bind]. pose proof (Hd i ltac:(lia)) as Da.
    destruct (arr_set_ok q1 i (w1 *: of_int f64 (nz iq i)) ltac:(lia)) as (q2 & -> & L2 & K2). cbn [bind].
    eexists; split; [reflexivity|]. cbn [fst snd]. split; [lia|]. split.
    + apply (fx_cast _ (1 * 1) (q0 - 24 * (jz - i) + -24)); [apply fx_mul; [exact H2|exact fx_x1p_24|lia|lia]|lia|lia].
    + intros k Hk. rewrite K2 by lia. destruct (Z.eqb_spec k i) as [->|]; [|apply H3; lia].
      apply (fx_cast _ (1 * nz iq i) (q0 - 24 * (jz - i) + 0)); [apply fx_mul; [exact H2|apply fx_int; lia|lia|lia]|lia|lia].
  - cbn [bind]. exists (fst s). split; [reflexivity|]. split; [exact H1|]. intros i Hi. apply H3. lia.
Qed.

Lemma rpl_fq_ok q jz jp : Z.of_nat (length q) = 20 -> 0 <= jz <= 11 -> 0 <= jp <= 6 -> exists fq, rpl_fq q jz jp = Some fq /\ Z.of_nat (length fq) = 20.
Proof.
  intros Lq Hz Hp. unfold rpl_fq.
  fordn (fun (i : Z) (fq : list Z) => Z.of_nat (length fq) = 20) as (s & E & H1); [lia|rewrite repeat_length; reflexivity| |exists s; split; [exact E|exact H1]].
  intros i fq Hi L. rewrite usub_ok by lia. cbn [bind].
  match goal with |- context [run _ ?st _] =>
    destruct (run_rule (fun s : Z * Z => 0 <= fst s <= jp + 1) (fun s => jp + 1 - fst s) (fun _ => True) st) with (p := 25%positive) (s := (0, 0)) as (r & E & _) end.
  - intros [k w] Hk. cbn [fst] in Hk. destruct (Z.leb_spec k jp), (Z.leb_spec k (jz - i)); cbn [andb]; try (eexists; split; [reflexivity|exact I]).
    assert (LP : Z.of_nat (length PIO2) = 8) by reflexivity.
    rewrite arr_get_ok by lia. cbn [bind]. rewrite uadd_ok by (p31; lia). cbn [bind]. rewrite arr_get_ok by lia. cbn [bind]. rewrite uadd_ok by (p31; lia). cbn [bind].
    eexists; split; [reflexivity|]. cbv iota. cbn [fst]. lia.
  - cbn [fst]. lia.
  - cbn [fst]. lia.
  - rewrite E. cbn [bind]. destruct (arr_set_ok fq (jz - i) r ltac:(lia)) as (f' & -> & L' & _). eexists; split; [reflexivity|lia].
Qed.
Lemma rpl_sum_ok fq lo jz : Z.of_nat (length fq) = 20 -> 0 <= lo <= jz + 1 -> jz <= 11 -> exists r, rpl_sum fq lo jz = Some r.
Proof.
  intros L Hl Hz. unfold rpl_sum. fordn (fun (i r : Z) => True) as (s & E & H1); [lia|exact I| |exists s; exact E].
  intros i r Hi _. rewrite arr_get_ok by lia. cbn [bind]. eexists; split; [reflexivity|exact I].
Qed.
Lemma rpl_out_ok fq y jz ih prec : Z.of_nat (length fq) = 20 -> 0 <= jz <= 11 -> prec = 0 \/ prec = 1 \/ prec = 2 ->
  prec < Z.of_nat (length y) -> 2 <= Z.of_nat (length y) \/ prec = 0 -> exists y', rpl_out fq y jz ih prec = Some y' /\ length y' = length y.
Proof.
  intros L Hz Hp Hy Hy2. unfold rpl_out.
  destruct (rpl_sum_ok fq 0 jz L ltac:(lia) ltac:(lia)) as (w & Ew).
  destruct Hp as [-> | Hp]; [cbn [Z.eqb]|].
  - rewrite Ew. cbn [bind]. destruct (arr_set_ok y 0 (if ih =? 0 then w else fneg f64 w) ltac:(lia)) as (y' & -> & L' & _). eauto.
  - assert (prec =? 0 = false) as -> by lia. assert ((prec =? 1) || (prec =? 2) = true) as -> by (destruct Hp as [-> | ->]; reflexivity).
    rewrite Ew. cbn [bind]. destruct (arr_set_ok y 0 (if ih =? 0 then w else fneg f64 w) ltac:(lia)) as (y1 & -> & L1 & _). cbn [bind].
    rewrite arr_get_ok by lia. cbn [bind].
    forup (fun (i r : Z) => True) as (s & E & _); [lia|exact I| |rewrite E].
    + intros i r Hi _. rewrite arr_get_ok by lia. cbn [bind]. eexists; split; [reflexivity|exact I].
    + cbn [bind]. destruct (arr_set_ok y1 1 (if ih =? 0 then s else fneg f64 s) ltac:(lia)) as (y' & -> & L' & _). eexists; split; [reflexivity|lia].
Qed.

(** The whole function, for one to three 24-bit pieces. *)
Theorem rem_pio2_large_ok b x X y e0 prec : 1 <= Z.of_nat (length x) <= 3 -> -3 <= e0 <= 1000 ->
  prec = 0 \/ prec = 1 -> prec < Z.of_nat (length y) ->
  (forall j, 0 <= j < Z.of_nat (length x) -> fx (nz x j) (X j) 0) -> (forall j, 0 <= X j < 2 ^ 24) -> (forall j, Z.of_nat (length x) <= j -> X j = 0) ->
  (forall N, 2 ^ 80 <= Z.abs (Xt X * win (IPIO2 b) (jv_of e0) (Z.to_nat (prec + 3)) - N * 2 ^ (24 * (prec + 5) - q0_of e0))) ->
  exists n ih z iq q jz jz' q1 iq' q' fq y',
    rpl_post b (jv_of e0) (prec + 3) (q0_of e0) X (n, ih, z, iq, q, jz) /\
    rpl_chop z jz (q0_of e0) iq = Some (jz', q1, iq') /\ rpl_back q iq' jz' q1 = Some q' /\ rpl_fq q' jz' (prec + 3) = Some fq /\
    rpl_out fq y jz' ih prec = Some y' /\ length y' = length y /\ rem_pio2_large b x y e0 prec = Some (y', Z.land n 7).
Proof.
  intros Hlx He Hp Hy HxX HX HXo Hgap. unfold rem_pio2_large.
  assert (b && negb (e0 <=? 16360) = false) as -> by (assert (e0 <=? 16360 = true) as -> by lia; apply andb_false_r). cbv iota zeta.
  assert (EJ : arr_get INIT_JK prec = Some (prec + 3)) by (destruct Hp as [-> | ->]; reflexivity). rewrite EJ. cbn [bind].
  rewrite usub_ok by lia. cbn [bind]. rewrite ssub_ok by (p31; lia). cbn [bind].
  pose proof (jv_range e0 He) as (J1 & J2 & J3). change (if Z.quot (e0 - 3) 24 <? 0 then 0 else Z.quot (e0 - 3) 24) with (jv_of e0).
  rewrite sadd_ok by (p31; lia). cbn [bind]. unfold smul. rewrite chk_ok by (p31; lia). cbn [bind].
  rewrite ssub_ok by (p31; lia). cbn [bind]. fold (q0_of e0).
  set (jx := Z.of_nat (length x) - 1) in *.
  destruct (rpl_f_ok b jx (jv_of e0) (prec + 3) x ltac:(lia) J1 ltac:(lia)) as (f & -> & Hf). cbn [bind].
  assert (A1 : 0 <= jx <= 2) by lia. assert (A2 : Z.of_nat (length x) = jx + 1) by lia. assert (A3 : 3 <= prec + 3 <= 4) by lia.
  assert (A4 : forall j, 0 <= j <= jx -> fx (nz x j) (X j) 0) by (intros; apply HxX; lia).
  assert (A5 : forall j, jx < j -> X j = 0) by (intros; apply HXo; lia).
  destruct (rpl_q_ok b jx (jv_of e0) (prec + 3) x X A1 A3 A2 A4 HX A5 f Hf) as (q & -> & Hq). cbn [bind].
  edestruct (rpl_loop_ok b jx (jv_of e0) (prec + 3) (q0_of e0) x X) as (r & -> & Hr); try eassumption.
  { intros N. replace (2 + (prec + 3)) with (prec + 5) by lia. apply Hgap. }
  cbn [bind]. destruct r as [[[[[n ih] z] iq] q2] jz]. pose proof Hr as (Zi & N & B1 & B2 & B3 & B4 & B5 & B6 & (B7 & B8 & B9) & _).
  destruct (rpl_chop_ok z Zi (q0_of e0) jz iq J2 ltac:(lia) B2 B3 B4) as (jz' & q1 & iq' & Ec & C1 & C2 & C3 & C4 & _).
  { assert (0 < 2 ^ (24 * (jz - (prec + 3)) + 31)) by (apply Z.pow_pos_nonneg; lia). lia. }
  rewrite Ec. cbn [bind].
  destruct (rpl_back_ok q2 iq' jz' q1 B5 C1 C3 ltac:(lia)) as (q' & Eb & D1 & D2). rewrite Eb. cbn [bind].
  destruct (rpl_fq_ok q' jz' (prec + 3) D1 C1 ltac:(lia)) as (fq & Ef & D3). rewrite Ef. cbn [bind].
  destruct (rpl_out_ok fq y jz' ih prec D3 C1 ltac:(lia) Hy ltac:(lia)) as (y' & Ey & D4). rewrite Ey. cbn [bind].
  exists n, ih, z, iq, q2, jz, jz', q1, iq', q', fq, y'. repeat (split; [first [exact Hr|assumption|reflexivity]|]). reflexivity.
Qed.
