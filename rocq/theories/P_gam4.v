(** lgamma_r and lgammaf_r: they return for every argument; special values and the sign of gamma. *)
From Coq Require Import ZArith Reals Lia Lra Bool List Psatz.
From Flocq Require Import Core.
From Verif Require Import Base Spec SpecFun SpecAcc Format P_format Ieee P_ieee P_real P_neg P_round P_elem P_elem2 P_tot P_lit P_err P_log P_exp P_ival P_ival2 P_dom P_bessel P_sym P_sym3 P_trigf P_powt8 P_gam P_gam2 P_gam3 SpecGamma M_basic M_elib M_log M_trig M_gamma.
Open Scope Z_scope.
Open Scope fl_scope.
Local Opaque fadd fsub fmul fdiv of_int fcvt rs_log rs_logf.

Ltac gfin := lazymatch goal with |- exists r, Some ?t = Some r /\ _ => exists t; split; [reflexivity|cbn [fst snd]; split; [bitsok|reflexivity]] end.
Ltac gam := repeat (cbv zeta beta iota; match goal with
  | |- exists r, Some _ = Some r /\ _ => gfin
  | |- exists r, bind (rs_log ?a) _ = Some r /\ _ => destruct (log_tot a ltac:(bitsok)) as (? & -> & ?); cbn [bind]
  | |- exists r, bind (rs_logf ?a) _ = Some r /\ _ => destruct (logf_tot a ltac:(bitsok)) as (? & -> & ?); cbn [bind]
  | H : (?a =? ?b) = ?c |- _ => first [discriminate H | clear H]
  | |- exists r, bind (let '(_, _) := (if ?c then _ else _) in _) _ = Some r /\ _ => destruct c
  | |- exists r, bind (let '(_, _) := (let '(_, _) := (if ?c then _ else _) in _) in _) _ = Some r /\ _ => destruct c
  | _ => walk1 end).
Lemma lgamma_r_1_tot x u nadj ix sign sg : isbits f64 x -> isbits f64 nadj ->
  exists p, rs_lgamma_r_1 x u nadj ix sign sg = Some p /\ isbits f64 (fst p) /\ snd p = sg.
Proof. intros B BN. unfold rs_lgamma_r_1. gam. Qed.
Lemma lgammaf_r_1_tot x nadj ix sign sg : isbits f32 x -> isbits f32 nadj ->
  exists p, rs_lgammaf_r_1 x nadj ix sign sg = Some p /\ isbits f32 (fst p) /\ snd p = sg.
Proof. intros B BN. unfold rs_lgammaf_r_1. gam. Qed.
(** integers and the reduced argument *)
Lemma m2_int F x : is_integer (val F x) -> (m2 F x = 0 \/ m2 F x = 1)%R.
Proof.
  intros [n E]. unfold m2. rewrite E. assert (Q : Zfloor (IZR n / 2) = n / 2).
  { apply Zfloor_imp. pose proof (Z.div_mod n 2 ltac:(lia)) as D. pose proof (Z.mod_pos_bound n 2 ltac:(lia)) as M. rewrite plus_IZR. set (q := n / 2) in *.
    assert (A : (2 * IZR q <= IZR n <= 2 * IZR q + 1)%R) by (split; [rewrite <- mult_IZR; apply IZR_le; lia|rewrite <- mult_IZR, <- plus_IZR; apply IZR_le; lia]). lra. }
  rewrite Q. pose proof (Z.div_mod n 2 ltac:(lia)) as D. pose proof (Z.mod_pos_bound n 2 ltac:(lia)) as M. assert (C : n mod 2 = 0 \/ n mod 2 = 1) by lia.
  rewrite <- (mult_IZR 2), <- minus_IZR. replace (n - 2 * (n / 2)) with (n mod 2) by lia. destruct C as [-> | ->]; auto.
Qed.
Lemma m2_nint F x : ~ is_integer (val F x) -> (Z.even (Zfloor (- val F x)) = false -> 0 < m2 F x < 1)%R /\ (Z.even (Zfloor (- val F x)) = true -> 1 < m2 F x)%R.
Proof.
  intros N. pose proof (m2_bd F x) as MB. unfold m2 in *. set (q := Zfloor (val F x / 2)) in *. set (v := val F x) in *.
  assert (N0 : forall n : Z, v <> IZR n) by (intros n E; apply N; now exists n).
  assert (A0 : (v - 2 * IZR q <> 0)%R) by (intros H; apply (N0 (2 * q)); rewrite mult_IZR; lra).
  assert (A1 : (v - 2 * IZR q <> 1)%R) by (intros H; apply (N0 (2 * q + 1)); rewrite plus_IZR, mult_IZR; lra).
  destruct (Rlt_le_dec (v - 2 * IZR q) 1) as [C|C].
  - assert (E : Zfloor (- v) = 2 * (- q - 1) + 1). { apply Zfloor_imp. rewrite !plus_IZR, mult_IZR, minus_IZR, opp_IZR. lra. }
    rewrite E, Z.even_add, Z.even_mul. cbn. split; [lra|discriminate].
  - assert (E : Zfloor (- v) = 2 * (- q - 1)). { apply Zfloor_imp. rewrite !plus_IZR, mult_IZR, minus_IZR, opp_IZR. lra. }
    rewrite E, Z.even_mul. cbn. split; [discriminate|lra].
Qed.
Lemma feqR F a b : finite F a = true -> finite F b = true -> feq F a b = Req_bool (val F a) (val F b).
Proof. intros A B. unfold feq. rewrite fcmp_finite by assumption. unfold Req_bool. now destruct (Rcompare (val F a) (val F b)). Qed.
Lemma fgtR F a b : finite F a = true -> finite F b = true -> fgt F a b = Rlt_bool (val F b) (val F a).
Proof. intros A B. unfold fgt. rewrite fcmp_finite by assumption. unfold Rlt_bool. rewrite (Rcompare_sym (val F b)). now destruct (Rcompare (val F a) (val F b)). Qed.
Lemma sgb64 x : isbits f64 x -> negb (Z.shiftr x 63 =? 0) = signbit f64 x.
Proof. intros B. rewrite sg64 by assumption. now destruct (signbit f64 x). Qed.
Lemma log_zero : rs_log 0 = Some 0xfff0000000000000. Proof. vm_compute. reflexivity. Qed.
Lemma logf_zero : rs_logf 0 = Some 0xff800000. Proof. vm_compute. reflexivity. Qed.
Lemma big64 x : isbits f64 x -> finite f64 x = true -> 0x3b900000 <= a64 x / 2 ^ 32 -> (bpow radix2 (-70) <= Rabs (val f64 x))%R.
Proof.
  intros B G H. destruct (val_a64 x B) as (B1 & B2 & B3 & B4). rewrite <- B4. assert (R : 0 <= a64 x < 2 ^ 63) by (destruct (bits64 x B); lia).
  destruct (pos64 (a64 x) R) as (_ & _ & S). rewrite fin64 in G by assumption. apply Z.ltb_lt in G.
  assert (L : 0x3b90000000000000 <= a64 x). { pose proof (Z.div_mod (a64 x) (2 ^ 32) ltac:(lia)). pose proof (Z.mod_pos_bound (a64 x) (2 ^ 32) ltac:(lia)). lia. }
  destruct (IN_pos64 0x3b90000000000000 0x7fefffffffffffff (a64 x) B1 S ltac:(lia) ltac:(lia) ltac:(lia)) as (_ & _ & K & _). cbn [fst] in K.
  assert (V : val f64 0x3b90000000000000 = (1 / 1180591620717411303424)%R) by lit. rewrite V in K. change (bpow radix2 (-70)) with (/ 1180591620717411303424)%R. lra.
Qed.
Lemma big32 x : isbits f32 x -> finite f32 x = true -> 0x35000000 <= a32 x -> (bpow radix2 (-70) <= Rabs (val f32 x))%R.
Proof.
  intros B G H. destruct (val_a32 x B) as (B1 & B2 & B3 & B4). rewrite <- B4. assert (R : 0 <= a32 x < 2 ^ 31) by (destruct (bits32 x B); lia).
  destruct (pos32 (a32 x) R) as (_ & _ & S). rewrite fin32 in G by assumption. apply Z.ltb_lt in G.
  destruct (IN_pos32 0x35000000 0x7f7fffff (a32 x) B1 S ltac:(lia) ltac:(lia) ltac:(lia)) as (_ & _ & K & _). cbn [fst] in K.
  assert (V : val f32 0x35000000 = (1 / 2097152)%R) by lit. rewrite V in K. change (bpow radix2 (-70)) with (/ 1180591620717411303424)%R. lra.
Qed.
Lemma small64 x : isbits f64 x -> finite f64 x = true -> a64 x / 2 ^ 32 < 0x3b900000 -> (Rabs (val f64 x) < 1)%R.
Proof.
  intros B G H. destruct (val_a64 x B) as (B1 & B2 & B3 & B4). rewrite <- B4. assert (R : 0 <= a64 x < 2 ^ 63) by (destruct (bits64 x B); lia).
  destruct (pos64 (a64 x) R) as (_ & _ & S). assert (L : a64 x <= 0x3b90000000000000). { pose proof (Z.div_mod (a64 x) (2 ^ 32) ltac:(lia)). pose proof (Z.mod_pos_bound (a64 x) (2 ^ 32) ltac:(lia)). lia. }
  destruct (IN_pos64 0 0x3b90000000000000 (a64 x) B1 S ltac:(lia) ltac:(lia) ltac:(lia)) as (_ & _ & _ & K). cbn [snd] in K.
  assert (V : val f64 0x3b90000000000000 = (1 / 1180591620717411303424)%R) by lit. rewrite V in K. lra.
Qed.
Lemma small32 x : isbits f32 x -> finite f32 x = true -> a32 x < 0x35000000 -> (Rabs (val f32 x) < 1)%R.
Proof.
  intros B G H. destruct (val_a32 x B) as (B1 & B2 & B3 & B4). rewrite <- B4. assert (R : 0 <= a32 x < 2 ^ 31) by (destruct (bits32 x B); lia).
  destruct (pos32 (a32 x) R) as (_ & _ & S).
  destruct (IN_pos32 0 0x35000000 (a32 x) B1 S ltac:(lia) ltac:(lia) ltac:(lia)) as (_ & _ & _ & K). cbn [snd] in K.
  assert (V : val f32 0x35000000 = (1 / 2097152)%R) by lit. rewrite V in K. lra.
Qed.
Lemma sgn_pos r : (0 < r)%R -> gamma_sgn r = 1. Proof. intros H. unfold gamma_sgn. destruct (Rlt_dec 0 r); [reflexivity|contradiction]. Qed.
Lemma sgn_neg r : (r < 0)%R -> gamma_sgn r = if Z.even (Zfloor r) then 1 else -1. Proof. intros H. unfold gamma_sgn. destruct (Rlt_dec 0 r); [lra|reflexivity]. Qed.
Lemma floor_m1 r : (-1 < r < 0)%R -> Zfloor r = -1. Proof. intros H. apply Zfloor_imp. cbn. lra. Qed.
Lemma not_int r : (0 < Rabs r < 1)%R -> ~ is_integer r.
Proof. intros H [n ->]. rewrite <- abs_IZR in H. destruct H as [H1 H2]. apply lt_IZR in H1. apply lt_IZR in H2. lia. Qed.
