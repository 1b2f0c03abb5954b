(** The gamma functions: reduction of the argument of sin(pi x). *)
From Coq Require Import ZArith Reals Lia Lra Bool List Psatz.
From Flocq Require Import Core Sterbenz.
From Verif Require Import Base Spec SpecFun Format P_format Ieee P_ieee P_real P_neg P_round P_elem P_elem2 P_tot P_lit P_err P_ival P_ival2 M_basic M_elib.
Open Scope R_scope.
Local Opaque fadd fsub fmul fdiv of_int fcvt.

(** an operation whose exact result is representable *)
Lemma exact F r sz y : rounds_to F r sz y -> repr F r -> Rabs r < bpow radix2 (bias F + 1) -> isbits F y /\ finite F y = true /\ val F y = r.
Proof.
  intros H P L. destruct (rounds_to_bounded F r sz y (Rabs r) H) as (A & B & C & _); [now apply generic_format_abs|split; [lra|exact L]|].
  split; [exact A|]. split; [exact B|]. rewrite C. now apply repr_rnd.
Qed.
(** the fractional part of a representable number is representable *)
Lemma repr_frac F r : repr F r -> 0 <= r -> repr F (r - IZR (Zfloor r)).
Proof.
  intros P H. destruct (repr_float F r P) as (n & e & E & A & B). destruct (Z_le_gt_dec 0 e) as [L|L].
  - assert (Q : r = IZR (n * 2 ^ e)) by (rewrite E, mult_IZR, IZR_pow2 by lia; reflexivity). rewrite Q, Zfloor_IZR, Rminus_diag_eq by reflexivity. apply repr_0.
  - set (f := Zfloor r). assert (Q : r - IZR f = IZR (n - f * 2 ^ (- e)) * bpow radix2 e).
    { rewrite minus_IZR, mult_IZR, IZR_pow2 by lia. rewrite Rmult_minus_distr_r, Rmult_assoc, <- bpow_plus, <- E. replace (- e + e)%Z with 0%Z by lia. cbn. ring. }
    rewrite Q. apply repr_int; [|exact B]. pose proof (Zfloor_lb r) as L1. fold f in L1. assert (F0 : (0 <= f)%Z) by (apply Zfloor_lub; exact H).
    assert (0 <= IZR (n - f * 2 ^ (- e)))%R. { apply Rmult_le_reg_r with (bpow radix2 e); [apply bpow_gt_0|]. rewrite <- Q. lra. }
    apply le_IZR in H0. pose proof (Z.pow_pos_nonneg 2 (- e) ltac:(lia) ltac:(lia)). assert (0 <= f * 2 ^ (- e))%Z by (apply Z.mul_nonneg_nonneg; lia). lia.
Qed.
Section Red.
Variable F : fmt.
Hypotheses (EW : (8 <= ew F)%Z) (MW : (10 < mw F)%Z).
Variables half two four x : Z.
Hypotheses (HH : finite F half = true /\ val F half = 1 / 2) (H2 : finite F two = true /\ val F two = 2 / 1) (H4 : finite F four = true /\ val F four = 4 / 1).
Hypotheses (Bx : isbits F x) (Fx : finite F x = true) (Lx : bpow radix2 (-100) <= val F x).
Lemma big16 : 16 <= bpow radix2 (bias F + 1).
Proof. change 16 with (bpow radix2 4). apply bpow_le. pose proof (bias_facts F). assert (2 ^ 8 <= 2 ^ ew F)%Z by (apply Z.pow_le_mono_r; lia). lia. Qed.
Lemma emin100 : (emin F <= -100)%Z.
Proof. unfold emin. pose proof (bias_facts F). assert (2 ^ 8 <= 2 ^ ew F)%Z by (apply Z.pow_le_mono_r; lia). lia. Qed.
Lemma xpos : 0 < val F x. Proof. pose proof (bpow_gt_0 radix2 (-100)). lra. Qed.
(** x mod 2, exactly *)
Definition m2 : R := val F x - 2 * IZR (Zfloor (val F x / 2)).
Lemma m2_bd : 0 <= m2 < 2. Proof. unfold m2. pose proof (Zfloor_lb (val F x / 2)). pose proof (Zfloor_ub (val F x / 2)). lra. Qed.
Lemma half_ex : isbits F (fmul F x half) /\ finite F (fmul F x half) = true /\ val F (fmul F x half) = val F x / 2.
Proof.
  destruct HH as [FH VH]. pose proof (fmul_spec F x half Fx FH) as S. rewrite VH in S. replace (val F x * (1 / 2)) with (val F x / 2) in S by field.
  pose proof (val_lt_max F x Fx) as V. pose proof xpos. apply exact in S; [exact S| |rewrite Rabs_pos_eq in * by lra; lra].
  destruct (repr_float F (val F x) (repr_val F x Fx)) as (n & e & E & A & B). destruct (Z.eq_dec e (emin F)) as [Q|Q].
  - exfalso. rewrite E in Lx. assert (IZR n * bpow radix2 e < bpow radix2 (mw F + 1) * bpow radix2 e). { apply Rmult_lt_compat_r; [apply bpow_gt_0|]. rewrite <- IZR_pow2 by lia. apply IZR_lt. lia. }
    rewrite <- bpow_plus in H0. assert (bpow radix2 (-100) < bpow radix2 (mw F + 1 + e)) by lra. apply lt_bpow in H1. subst e. unfold emin in H1. pose proof (bias_facts F). assert (2 ^ 8 <= 2 ^ ew F)%Z by (apply Z.pow_le_mono_r; lia). change (2 ^ 8)%Z with 256%Z in *. lia.
  - replace (val F x / 2) with (IZR n * bpow radix2 (e - 1)). { apply repr_int; lia. } rewrite bpow_half, E. field.
Qed.
Lemma red_ex : exists v0, floor F (fmul F x half) = Some v0 /\ let m := fmul F two (fsub F (fmul F x half) v0) in isbits F m /\ finite F m = true /\ val F m = m2.
Proof.
  destruct half_ex as (B & G & V). destruct (floor_ok F _ B) as (v0 & E & B0 & H & _). destruct (H G) as (F0 & V0 & _). rewrite V in V0.
  exists v0. split; [exact E|]. cbv zeta. pose proof (fsub_spec F _ v0 G F0) as S. rewrite V, V0 in S. pose proof m2_bd as M. pose proof xpos. pose proof big16 as BG.
  assert (D : repr F (val F x / 2 - IZR (Zfloor (val F x / 2)))) by (apply repr_frac; [rewrite <- V; now apply repr_val|lra]).
  assert (Q : m2 = 2 * (val F x / 2 - IZR (Zfloor (val F x / 2)))) by (unfold m2; field).
  apply exact in S; [|exact D|rewrite Rabs_pos_eq by lra; lra]. destruct S as (S1 & S2 & S3). destruct H2 as [F2 V2]. pose proof (fmul_spec F two _ F2 S2) as T. rewrite S3, V2 in T.
  replace (2 / 1 * (val F x / 2 - IZR (Zfloor (val F x / 2)))) with m2 in T by lra. apply exact in T; [exact T| |rewrite Rabs_pos_eq by lra; lra].
  rewrite Q. replace (2 * (val F x / 2 - IZR (Zfloor (val F x / 2)))) with ((val F x / 2 - IZR (Zfloor (val F x / 2))) * bpow radix2 1) by (change (bpow radix2 1) with 2; ring). now apply repr_scale.
Qed.
Lemma four_repr m : finite F m = true -> val F m = m2 -> repr F (4 * m2) /\ Rabs (4 * m2) < bpow radix2 (bias F + 1).
Proof.
  intros G V. pose proof m2_bd as M. pose proof big16 as BG. split; [|rewrite Rabs_pos_eq by lra; lra].
  replace (4 * m2) with (m2 * bpow radix2 2) by (change (bpow radix2 2) with 4; ring). apply repr_scale; [rewrite <- V; now apply repr_val|lia].
Qed.
Lemma four_ex m : finite F m = true -> val F m = m2 -> let q := fmul F m four in isbits F q /\ finite F q = true /\ val F q = 4 * m2.
Proof.
  intros G V. cbv zeta. destruct H4 as [F4 V4]. destruct (four_repr m G V) as [R A].
  pose proof (fmul_spec F m four G F4) as S. rewrite V, V4 in S. replace (m2 * (4 / 1)) with (4 * m2) in S by field. apply exact in S; [exact S|exact R|exact A].
Qed.
Lemma four_ex' m : finite F m = true -> val F m = m2 -> let q := fmul F four m in isbits F q /\ finite F q = true /\ val F q = 4 * m2.
Proof.
  intros G V. cbv zeta. destruct H4 as [F4 V4]. destruct (four_repr m G V) as [R A].
  pose proof (fmul_spec F four m F4 G) as S. rewrite V, V4 in S. replace (4 / 1 * m2) with (4 * m2) in S by field. apply exact in S; [exact S|exact R|exact A].
Qed.
(** the octant *)
Definition oct : Z := ((Zfloor (4 * m2) + 1) / 2)%Z.
Lemma fl_bd : (0 <= Zfloor (4 * m2) <= 7)%Z.
Proof. pose proof m2_bd as M. split; [apply Zfloor_lub; lra|]. apply Z.lt_succ_r. apply lt_IZR. pose proof (Zfloor_lb (4 * m2)). change (IZR (Z.succ 7)) with 8. lra. Qed.
Lemma oct_bd : (0 <= oct <= 4)%Z. Proof. unfold oct. pose proof fl_bd. split; [apply Z.div_pos; lia|apply Z.div_le_upper_bound; lia]. Qed.
Lemma to_int_oct lo hi q : (lo <= 0)%Z -> (8 <= hi)%Z -> finite F q = true -> val F q = 4 * m2 -> to_intZ F lo hi q = Zfloor (4 * m2).
Proof.
  intros L H G V. rewrite to_intZ_finite by (assumption || lia). rewrite V, Ztrunc_floor by (pose proof m2_bd; lra). pose proof fl_bd. unfold clampZ. zdec.
Qed.
Lemma quot_oct : Z.quot (Zfloor (4 * m2) + 1) 2 = oct. Proof. unfold oct. pose proof fl_bd. apply Z.quot_div_nonneg; lia. Qed.
Definition y2 : R := m2 - IZR oct / 2.
Lemma y2_bd : - / 4 <= y2 <= / 4.
Proof.
  unfold y2, oct. pose proof (Zfloor_lb (4 * m2)) as L. pose proof (Zfloor_ub (4 * m2)) as U. set (f := Zfloor (4 * m2)) in *.
  pose proof (Z.div_mod (f + 1) 2 ltac:(lia)) as D. pose proof (Z.mod_pos_bound (f + 1) 2 ltac:(lia)) as B. set (q := ((f + 1) / 2)%Z) in *.
  assert (C : ((f + 1) mod 2 = 0 \/ (f + 1) mod 2 = 1)%Z) by lia. destruct C as [C|C]; rewrite C in D.
  - assert (E : IZR f = 2 * IZR q - 1) by (rewrite <- mult_IZR, <- minus_IZR; f_equal; lia). rewrite E in *. lra.
  - assert (E : IZR f = 2 * IZR q) by (rewrite <- mult_IZR; f_equal; lia). rewrite E in *. lra.
Qed.
Lemma y2_st : (0 < oct)%Z -> IZR oct / 2 / 2 <= m2 <= 2 * (IZR oct / 2).
Proof. intros H. pose proof y2_bd as B. unfold y2 in B. assert (1 <= IZR oct) by (apply IZR_le; lia). lra. Qed.
End Red.
