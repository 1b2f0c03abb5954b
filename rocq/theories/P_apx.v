(** Running error analysis.

    [AP F s e R b] says that the float [e] approximates [s * R]: with [b = (lo, hi, er)] fixed-point numbers at scale 2^200, R lies in [lo, hi] and e is finite and within s * er of s * R.
    One rule per operation; the bounds are computed, so a bound for a whole expression follows by walking over it (tactic [apx]). The factor [s] allows errors relative to an argument. *)
From Coq Require Import ZArith Reals Lia Lra Bool List Psatz.
From Flocq Require Import Core Relative.
From Verif Require Import Base Spec Format P_format Ieee P_ieee P_real P_neg P_key P_elem P_lit P_err.
Open Scope R_scope.

Definition SC : Z := 2 ^ 200.
Definition fxr (z : Z) : R := IZR z / IZR SC.
Lemma SC_pos : 0 < IZR SC. Proof. apply (IZR_lt 0). reflexivity. Qed.
Lemma fxr_le a b : (a <= b)%Z -> fxr a <= fxr b.
Proof. intros H. unfold fxr. apply Rmult_le_compat_r; [left; apply Rinv_0_lt_compat, SC_pos|now apply IZR_le]. Qed.
Lemma fxr_add a b : fxr (a + b) = fxr a + fxr b. Proof. unfold fxr. rewrite plus_IZR. field. pose proof SC_pos. lra. Qed.
Lemma fxr_opp a : fxr (- a) = - fxr a. Proof. unfold fxr. rewrite opp_IZR. field. pose proof SC_pos. lra. Qed.
Lemma fxr_sub a b : fxr (a - b) = fxr a - fxr b. Proof. unfold fxr. rewrite minus_IZR. field. pose proof SC_pos. lra. Qed.
Lemma fxr_0 : fxr 0 = 0. Proof. unfold fxr, Rdiv. ring. Qed.
Lemma fxr_pos a : (0 <= a)%Z -> 0 <= fxr a. Proof. intros H. rewrite <- fxr_0. now apply fxr_le. Qed.
Lemma fxr_max a b : fxr (Z.max a b) = Rmax (fxr a) (fxr b).
Proof. destruct (Z.max_spec a b) as [[H ->] | [H ->]]; symmetry; [apply Rmax_right|apply Rmax_left]; apply fxr_le; lia. Qed.
Lemma fxr_abs a : fxr (Z.abs a) = Rabs (fxr a).
Proof. unfold fxr. rewrite abs_IZR. unfold Rdiv. rewrite Rabs_mult. f_equal. rewrite Rabs_pos_eq; [reflexivity|]. left. apply Rinv_0_lt_compat, SC_pos. Qed.
(** Quotient rounded down, by halving when the divisor is a power of two (much cheaper to evaluate than [Z.div]) *)
Fixpoint pdv (a : Z) (b : positive) : option Z := match b with xH => Some a | xO b => pdv (Z.div2 a) b | xI _ => None end.
Definition fdv (a b : Z) : Z := match b with Zpos p => match pdv a p with Some q => q | None => (a / b)%Z end | _ => (a / b)%Z end.
Lemma pdv_ok b : forall a q, pdv a b = Some q -> q = (a / Zpos b)%Z.
Proof.
  induction b as [b IH|b IH|]; intros a q H; cbn [pdv] in H; [discriminate| |injection H as <-; now rewrite Z.div_1_r].
  apply IH in H. rewrite H, Z.div2_div, Z.div_div by lia. f_equal. 
Qed.
Lemma fdv_eq a b : fdv a b = (a / b)%Z.
Proof. unfold fdv. destruct b as [|p|p]; try reflexivity. destruct (pdv a p) eqn:E; [now apply pdv_ok|reflexivity]. Qed.
(** quotient rounded up *)
Definition cdiv (a b : Z) : Z := (- fdv (- a) b)%Z.
Lemma cdiv_ge a b : (0 < b)%Z -> IZR a / IZR b <= IZR (cdiv a b).
Proof.
  intros H. assert (0 < IZR b) by (apply (IZR_lt 0); lia). unfold cdiv. rewrite fdv_eq. pose proof (Z.mul_div_le (- a) b H) as L. apply IZR_le in L. rewrite mult_IZR, opp_IZR in L. rewrite opp_IZR.
  apply Rmult_le_reg_l with (IZR b); [assumption|]. replace (IZR b * (IZR a / IZR b)) with (IZR a) by (field; lra). lra.
Qed.
Lemma fdiv_le a b : (0 < b)%Z -> IZR (fdv a b) <= IZR a / IZR b.
Proof.
  intros H. rewrite fdv_eq. assert (0 < IZR b) by (apply (IZR_lt 0); lia). pose proof (Z.mul_div_le a b H) as L. apply IZR_le in L. rewrite mult_IZR in L.
  apply Rmult_le_reg_l with (IZR b); [assumption|]. replace (IZR b * (IZR a / IZR b)) with (IZR a) by (field; lra). lra.
Qed.
Lemma fxr_mul_up a b : fxr a * fxr b <= fxr (cdiv (a * b) SC).
Proof.
  unfold fxr at 3. pose proof SC_pos. pose proof (cdiv_ge (a * b) SC eq_refl) as L. rewrite mult_IZR in L.
  replace (fxr a * fxr b) with ((IZR a * IZR b / IZR SC) / IZR SC) by (unfold fxr; field; lra).
  apply Rmult_le_compat_r; [left; now apply Rinv_0_lt_compat|exact L].
Qed.
Lemma fxr_mul_dn a b : fxr (fdv (a * b) SC) <= fxr a * fxr b.
Proof.
  unfold fxr at 1. pose proof SC_pos. pose proof (fdiv_le (a * b) SC eq_refl) as L. rewrite mult_IZR in L.
  replace (fxr a * fxr b) with ((IZR a * IZR b / IZR SC) / IZR SC) by (unfold fxr; field; lra).
  apply Rmult_le_compat_r; [left; now apply Rinv_0_lt_compat|exact L].
Qed.
(** scaling down by a power of two *)
Lemma fxr_shr a p : (0 <= p)%Z -> fxr a * bpow radix2 (- p) <= fxr (cdiv a (2 ^ p)).
Proof.
  intros H. assert (P : (0 < 2 ^ p)%Z) by (apply Z.pow_pos_nonneg; lia). pose proof (cdiv_ge a (2 ^ p) P) as L. pose proof SC_pos.
  replace (bpow radix2 (- p)) with (/ IZR (2 ^ p)). 2:{ rewrite bpow_opp. f_equal. change 2%Z with (radix_val radix2). now rewrite IZR_Zpower by lia. }
  assert (0 < IZR (2 ^ p)) by (apply (IZR_lt 0); lia).
  replace (fxr a * / IZR (2 ^ p)) with ((IZR a / IZR (2 ^ p)) / IZR SC) by (unfold fxr; field; lra). unfold fxr.
  apply Rmult_le_compat_r; [left; now apply Rinv_0_lt_compat|exact L].
Qed.

Definition bnd := (Z * Z * Z)%type.
Definition mg (b : bnd) : Z := let '(l, h, _) := b in Z.max (Z.abs l) (Z.abs h).
Definition ber (b : bnd) : Z := let '(_, _, e) := b in e.
Definition AP (F : fmt) (s : R) (e : Z) (r : R) (b : bnd) : Prop :=
  let '(l, h, er) := b in (isbits F e /\ finite F e = true) /\ fxr l <= r <= fxr h /\ Rabs (val F e - s * r) <= s * fxr er.
Lemma AP_mag F s e r b : AP F s e r b -> Rabs r <= fxr (mg b).
Proof. destruct b as [[l h] er]. intros (_ & [H1 H2] & _). unfold mg. rewrite fxr_max, !fxr_abs. apply Rabs_le. pose proof (Rmax_l (Rabs (fxr l)) (Rabs (fxr h))). pose proof (Rmax_r (Rabs (fxr l)) (Rabs (fxr h))). pose proof (Rle_abs (fxr h)). pose proof (Rle_abs (- fxr l)) as Q. rewrite Rabs_Ropp in Q. lra. Qed.
Lemma AP_fin F s e r b : AP F s e r b -> finite F e = true. Proof. destruct b as [[l h] er]. now intros ((_ & H) & _). Qed.
Lemma AP_bits F s e r b : AP F s e r b -> isbits F e. Proof. destruct b as [[l h] er]. now intros ((H & _) & _). Qed.
Lemma AP_err F s e r b : AP F s e r b -> Rabs (val F e - s * r) <= s * fxr (ber b). Proof. destruct b as [[l h] er]. now intros (_ & _ & H). Qed.
Lemma AP_ev F s e r b : 0 < s -> AP F s e r b -> Rabs (val F e) <= s * (fxr (mg b) + fxr (ber b)).
Proof.
  intros P H. pose proof (AP_mag _ _ _ _ _ H) as M. pose proof (AP_err _ _ _ _ _ H) as E. replace (val F e) with ((val F e - s * r) + s * r) by ring.
  eapply Rle_trans; [apply Rabs_triang|]. rewrite Rabs_mult, (Rabs_pos_eq s) by lra. nra.
Qed.
Definition pr (F : fmt) : Z := (mw F + 1)%Z.
(** [scal F s un]: underflow costs at most s * un *)
Definition scal (F : fmt) (s : R) (un : Z) : Prop := 0 < s <= 1 /\ (0 <= un)%Z /\ bpow radix2 (emin F - 1) <= s * fxr un.
Lemma rndF_abs F a : Rabs (rnd F a - a) <= bpow radix2 (- pr F) * Rabs a + bpow radix2 (emin F - 1).
Proof.
  pose proof (fmt_facts F). pose proof (bias_facts F). assert (PG : Prec_gt_0 (pr F)) by (unfold Prec_gt_0, pr; lia).
  destruct (Rle_lt_dec (bpow radix2 (emin F + pr F - 1)) (Rabs a)) as [L | L].
  - unfold rnd. pose proof (relative_error_N_FLT radix2 (emin F) (pr F) PG (fun x => negb (Z.even x)) a L) as E.
    change (1 - bias F - mw F)%Z with (emin F). change (mw F + 1)%Z with (pr F).
    replace (/ 2 * bpow radix2 (- pr F + 1)) with (bpow radix2 (- pr F)) in E by (rewrite bpow_plus; cbn; lra). pose proof (bpow_gt_0 radix2 (emin F - 1)). lra.
  - assert (E : Rabs (rnd F a - a) <= / 2 * bpow radix2 (emin F)).
    { unfold rnd. change (1 - bias F - mw F)%Z with (emin F). change (mw F + 1)%Z with (pr F).
      eapply Rle_trans; [apply error_le_half_ulp; apply FLT_exp_valid; exact PG|]. apply Rmult_le_compat_l; [lra|].
      rewrite ulp_FLT_small; [lra|exact PG|]. eapply Rlt_le_trans; [exact L|apply bpow_le; lia]. }
    replace (bpow radix2 (emin F - 1)) with (/ 2 * bpow radix2 (emin F)) by (unfold Zminus; rewrite bpow_plus; cbn; lra).
    pose proof (Rabs_pos a). pose proof (bpow_gt_0 radix2 (- pr F)). nra.
Qed.
Definition cap : Z := 2 ^ 300.
Lemma cap_ok F s m : 0 < s <= 1 -> (11 <= ew F \/ 8 <= ew F)%Z -> (m <= cap)%Z -> s * fxr m <= bpow radix2 (bias F).
Proof.
  intros S E H. apply Rle_trans with (fxr cap).
  - apply fxr_le in H. assert (0 <= fxr cap) by (apply fxr_pos; discriminate). destruct (Rle_lt_dec 0 (fxr m)); nra.
  - replace (fxr cap) with (bpow radix2 100).
    + apply bpow_le. unfold bias. assert (2 ^ 7 <= 2 ^ (ew F - 1))%Z by (apply Z.pow_le_mono_r; lia). lia.
    + unfold fxr, cap, SC. change (2 ^ 300)%Z with (2 ^ 100 * 2 ^ 200)%Z. rewrite mult_IZR. change (bpow radix2 100) with (IZR (2 ^ 100)). field. pose proof SC_pos. unfold SC in *. lra.
Qed.
Section Rules.
Variable F : fmt.
Hypothesis HF : (8 <= ew F)%Z.
Variable s : R.
Variable un : Z.
Hypothesis HS : scal F s un.
Lemma round_step (y : Z) (v r : R) sz (l h er m : Z) : rounds_to F v sz y -> fxr l <= r <= fxr h -> Rabs (v - s * r) <= s * fxr er -> Rabs v <= s * fxr m -> (m <= cap)%Z ->
  AP F s y r (l, h, er + cdiv m (2 ^ pr F) + un)%Z.
Proof.
  intros RT HR E M C. destruct HS as (S & U & B). 
  destruct (rounds_fin F v sz y RT) as [Fy Vy]; [eapply Rle_trans; [exact M|apply cap_ok; [exact S|right; exact HF|exact C]]|].
  split; [split; [exact (proj1 RT)|exact Fy]|]. split; [exact HR|]. rewrite Vy. rewrite !fxr_add.
  pose proof (rndF_abs F v) as Q. replace (rnd F v - s * r) with ((rnd F v - v) + (v - s * r)) by ring. eapply Rle_trans; [apply Rabs_triang|].
  assert (P : (0 <= pr F)%Z) by (unfold pr; pose proof (fmt_facts F); lia).
  pose proof (fxr_shr m (pr F) P) as K. pose proof (bpow_gt_0 radix2 (- pr F)) as G.
  assert (bpow radix2 (- pr F) * Rabs v <= s * fxr (cdiv m (2 ^ pr F))).
  { eapply Rle_trans; [apply Rmult_le_compat_l; [lra|exact M]|]. replace (bpow radix2 (- pr F) * (s * fxr m)) with (s * (fxr m * bpow radix2 (- pr F))) by ring. apply Rmult_le_compat_l; lra. }
  lra.
Qed.
Definition badd (a b : bnd) : bnd := let '(l1, h1, e1) := a in let '(l2, h2, e2) := b in
  let l := (l1 + l2)%Z in let h := (h1 + h2)%Z in let e := (e1 + e2)%Z in (l, h, e + cdiv (Z.max (Z.abs l) (Z.abs h) + e) (2 ^ pr F) + un)%Z.
Definition bneg (a : bnd) : bnd := let '(l, h, e) := a in (- h, - l, e)%Z.
Definition bok (a : bnd) : bool := (mg a + ber a <=? cap)%Z.
Lemma sum_step y (v r : R) sz l h er : rounds_to F v sz y -> fxr l <= r <= fxr h -> Rabs (v - s * r) <= s * fxr er -> (Z.max (Z.abs l) (Z.abs h) + er <= cap)%Z ->
  AP F s y r (l, h, er + cdiv (Z.max (Z.abs l) (Z.abs h) + er) (2 ^ pr F) + un)%Z.
Proof.
  intros RT HR E C. destruct HS as (S & _). apply (round_step y v r sz); try assumption.
  replace v with ((v - s * r) + s * r) by ring. eapply Rle_trans; [apply Rabs_triang|]. rewrite fxr_add. rewrite Rabs_mult, (Rabs_pos_eq s) by lra.
  assert (Rabs r <= fxr (Z.max (Z.abs l) (Z.abs h))).
  { rewrite fxr_max, !fxr_abs. apply Rabs_le. pose proof (Rmax_l (Rabs (fxr l)) (Rabs (fxr h))). pose proof (Rmax_r (Rabs (fxr l)) (Rabs (fxr h))). pose proof (Rle_abs (fxr h)). pose proof (Rle_abs (- fxr l)) as Q. rewrite Rabs_Ropp in Q. lra. }
  nra.
Qed.
Lemma AP_add x y a b ba bb bc : AP F s x a ba -> AP F s y b bb -> badd ba bb = bc -> (mg (badd ba bb) + ber ba + ber bb <=? cap)%Z = true -> AP F s (fadd F x y) (a + b) bc.
Proof.
  intros Hx Hy <- C. pose proof (AP_fin _ _ _ _ _ Hx) as Fx. pose proof (AP_fin _ _ _ _ _ Hy) as Fy. destruct ba as [[l1 h1] e1], bb as [[l2 h2] e2].
  apply Z.leb_le in C. cbn [badd mg ber] in *. destruct Hx as (_ & Lx & Ex). destruct Hy as (_ & Ly & Ey). destruct HS as (S & _).
  apply (sum_step _ (val F x + val F y) _ _ _ _ _ (fadd_spec F x y Fx Fy)); [rewrite !fxr_add; lra| |lia].
  replace (val F x + val F y - s * (a + b)) with ((val F x - s * a) + (val F y - s * b)) by ring. eapply Rle_trans; [apply Rabs_triang|]. rewrite fxr_add. lra.
Qed.
Lemma AP_sub x y a b ba bb bc : AP F s x a ba -> AP F s y b bb -> badd ba (bneg bb) = bc -> (mg (badd ba (bneg bb)) + ber ba + ber bb <=? cap)%Z = true -> AP F s (fsub F x y) (a - b) bc.
Proof.
  intros Hx Hy <- C. pose proof (AP_fin _ _ _ _ _ Hx) as Fx. pose proof (AP_fin _ _ _ _ _ Hy) as Fy. destruct ba as [[l1 h1] e1], bb as [[l2 h2] e2].
  apply Z.leb_le in C. cbn [badd bneg mg ber] in *. destruct Hx as (_ & Lx & Ex). destruct Hy as (_ & Ly & Ey). destruct HS as (S & _).
  apply (sum_step _ (val F x - val F y) _ _ _ _ _ (fsub_spec F x y Fx Fy)); [rewrite !fxr_add, !fxr_opp; lra| |lia].
  replace (val F x - val F y - s * (a - b)) with ((val F x - s * a) - (val F y - s * b)) by ring. eapply Rle_trans; [apply Rabs_triang|]. rewrite Rabs_Ropp, fxr_add. lra.
Qed.
Definition min4 (a b c d : Z) : Z := Z.min (Z.min a b) (Z.min c d).
Definition max4 (a b c d : Z) : Z := Z.max (Z.max a b) (Z.max c d).
Definition bmul (a b : bnd) : bnd := let '(l1, h1, e1) := a in let '(l2, h2, e2) := b in
  let p1 := (l1 * l2)%Z in let p2 := (l1 * h2)%Z in let p3 := (h1 * l2)%Z in let p4 := (h1 * h2)%Z in
  let m1 := mg a in let m2 := mg b in
  (fdv (min4 p1 p2 p3 p4) SC, cdiv (max4 p1 p2 p3 p4) SC,
   cdiv (e1 * (m2 + e2) + m1 * e2) SC + cdiv (cdiv ((m1 + e1) * (m2 + e2)) SC) (2 ^ pr F) + un)%Z.
Lemma mul_range a b l1 h1 l2 h2 : fxr l1 <= a <= fxr h1 -> fxr l2 <= b <= fxr h2 ->
  let p1 := (l1 * l2)%Z in let p2 := (l1 * h2)%Z in let p3 := (h1 * l2)%Z in let p4 := (h1 * h2)%Z in
  fxr (fdv (min4 p1 p2 p3 p4) SC) <= a * b <= fxr (cdiv (max4 p1 p2 p3 p4) SC).
Proof.
  intros [A1 A2] [B1 B2] p1 p2 p3 p4. 
  assert (D : forall p q, ((p <= q)%Z -> fxr (fdv p SC) <= fxr (fdv q SC)) /\ ((p <= q)%Z -> fxr (cdiv p SC) <= fxr (cdiv q SC))).
  { intros p q. split; intros H; apply fxr_le; rewrite ?fdv_eq; [apply Z.div_le_mono; [reflexivity|exact H]|]. unfold cdiv. rewrite !fdv_eq. apply -> Z.opp_le_mono. apply Z.div_le_mono; [reflexivity|lia]. }
  set (mn := min4 p1 p2 p3 p4). set (mx := max4 p1 p2 p3 p4).
  assert (M : (mn <= p1 /\ mn <= p2 /\ mn <= p3 /\ mn <= p4 /\ p1 <= mx /\ p2 <= mx /\ p3 <= mx /\ p4 <= mx)%Z) by (unfold mn, mx, min4, max4; lia).
  destruct M as (m1 & m2 & m3 & m4 & x1 & x2 & x3 & x4).
  pose proof (proj1 (D mn p1) m1). pose proof (proj1 (D mn p2) m2). pose proof (proj1 (D mn p3) m3). pose proof (proj1 (D mn p4) m4).
  pose proof (proj2 (D p1 mx) x1). pose proof (proj2 (D p2 mx) x2). pose proof (proj2 (D p3 mx) x3). pose proof (proj2 (D p4 mx) x4).
  assert (fxr (fdv p1 SC) <= fxr l1 * fxr l2) by apply fxr_mul_dn. assert (fxr l1 * fxr l2 <= fxr (cdiv p1 SC)) by apply fxr_mul_up.
  assert (fxr (fdv p2 SC) <= fxr l1 * fxr h2) by apply fxr_mul_dn. assert (fxr l1 * fxr h2 <= fxr (cdiv p2 SC)) by apply fxr_mul_up.
  assert (fxr (fdv p3 SC) <= fxr h1 * fxr l2) by apply fxr_mul_dn. assert (fxr h1 * fxr l2 <= fxr (cdiv p3 SC)) by apply fxr_mul_up.
  assert (fxr (fdv p4 SC) <= fxr h1 * fxr h2) by apply fxr_mul_dn. assert (fxr h1 * fxr h2 <= fxr (cdiv p4 SC)) by apply fxr_mul_up.
  set (xL1 := fxr l1) in *. set (xH1 := fxr h1) in *. set (xL2 := fxr l2) in *. set (xH2 := fxr h2) in *.
  assert (Q : Rmin (Rmin (xL1 * xL2) (xL1 * xH2)) (Rmin (xH1 * xL2) (xH1 * xH2)) <= a * b <= Rmax (Rmax (xL1 * xL2) (xL1 * xH2)) (Rmax (xH1 * xL2) (xH1 * xH2))).
  { assert (a * b = b * a) by ring. assert (Rmin (xL1 * b) (xH1 * b) <= a * b <= Rmax (xL1 * b) (xH1 * b)).
    { destruct (Rle_lt_dec 0 b); [rewrite Rmin_left, Rmax_right by nra; nra|rewrite Rmin_right, Rmax_left by nra; nra]. }
    assert (HC : forall c, Rmin (c * xL2) (c * xH2) <= c * b <= Rmax (c * xL2) (c * xH2)).
    { intros c. destruct (Rle_lt_dec 0 c); [rewrite Rmin_left, Rmax_right by nra; nra|rewrite Rmin_right, Rmax_left by nra; nra]. }
    pose proof (HC xL1). pose proof (HC xH1). split.
    - apply Rle_trans with (Rmin (xL1 * b) (xH1 * b)); [apply Rmin_glb|lra].
      + eapply Rle_trans; [apply Rmin_l|lra]. + eapply Rle_trans; [apply Rmin_r|lra].
    - apply Rle_trans with (Rmax (xL1 * b) (xH1 * b)); [lra|apply Rmax_lub].
      + eapply Rle_trans; [|apply Rmax_l]; lra. + eapply Rle_trans; [|apply Rmax_r]; lra. }
  split.
  - eapply Rle_trans; [|apply (proj1 Q)]. repeat apply Rmin_glb; lra.
  - eapply Rle_trans; [apply (proj2 Q)|]. repeat apply Rmax_lub; lra.
Qed.
Lemma AP_mul x y a b ba bb bc : AP F s x a ba -> AP F 1 y b bb -> bmul ba bb = bc -> ((0 <=? ber ba) && (0 <=? ber bb) && (cdiv ((mg ba + ber ba) * (mg bb + ber bb)) SC <=? cap))%Z = true -> AP F s (fmul F x y) (a * b) bc.
Proof.
  intros Hx Hy <- C. pose proof (AP_fin _ _ _ _ _ Hx) as Fx. pose proof (AP_fin _ _ _ _ _ Hy) as Fy.
  pose proof (AP_mag _ _ _ _ _ Hx) as Mx. pose proof (AP_mag _ _ _ _ _ Hy) as My. destruct HS as (S & _).
  pose proof (AP_ev _ _ _ _ _ (proj1 S) Hx) as Vx. pose proof (AP_ev _ _ _ _ _ Rlt_0_1 Hy) as Vy. rewrite Rmult_1_l in Vy.
  destruct ba as [[l1 h1] e1], bb as [[l2 h2] e2]. unfold bmul.
  set (m1 := mg (l1, h1, e1)) in *. set (m2 := mg (l2, h2, e2)) in *. change (ber (l1, h1, e1)) with e1 in *. change (ber (l2, h2, e2)) with e2 in *. clearbody m1 m2.
  rewrite !andb_true_iff, !Z.leb_le in C. destruct C as [[C1 C2] C].
  destruct Hx as (_ & Lx & Ex). destruct Hy as (_ & Ly & Ey). rewrite !Rmult_1_l in Ey.
  assert (G1 : 0 <= fxr e1) by now apply fxr_pos. assert (G2 : 0 <= fxr e2) by now apply fxr_pos.
  assert (K1 : 0 <= fxr m1) by (eapply Rle_trans; [apply Rabs_pos|exact Mx]). assert (K2 : 0 <= fxr m2) by (eapply Rle_trans; [apply Rabs_pos|exact My]).
  rewrite <- fxr_add in Vx, Vy.
  apply (round_step _ (val F x * val F y) _ _ _ _ _ _ (fmul_spec F x y Fx Fy)); [now apply mul_range| | |exact C].
  - replace (val F x * val F y - s * (a * b)) with ((val F x - s * a) * val F y + s * (a * (val F y - b))) by ring.
    eapply Rle_trans; [apply Rabs_triang|]. rewrite !Rabs_mult, (Rabs_pos_eq s) by lra.
    assert (T1 : Rabs (val F x - s * a) * Rabs (val F y) <= s * (fxr e1 * fxr (m2 + e2))).
    { rewrite <- Rmult_assoc. apply Rmult_le_compat; try apply Rabs_pos; assumption. }
    assert (T2 : Rabs a * Rabs (val F y - b) <= fxr m1 * fxr e2) by (apply Rmult_le_compat; try apply Rabs_pos; assumption).
    assert (T3 : fxr e1 * fxr (m2 + e2) + fxr m1 * fxr e2 <= fxr (cdiv (e1 * (m2 + e2) + m1 * e2) SC)).
    { unfold fxr. pose proof (cdiv_ge (e1 * (m2 + e2) + m1 * e2) SC eq_refl) as L. rewrite plus_IZR, !mult_IZR in L. pose proof SC_pos.
      replace (IZR e1 / IZR SC * (IZR (m2 + e2) / IZR SC) + IZR m1 / IZR SC * (IZR e2 / IZR SC)) with (((IZR e1 * IZR (m2 + e2) + IZR m1 * IZR e2) / IZR SC) / IZR SC) by (field; lra).
      apply Rmult_le_compat_r; [left; now apply Rinv_0_lt_compat|exact L]. }
    nra.
  - rewrite Rabs_mult. pose proof (fxr_mul_up (m1 + e1) (m2 + e2)).
    apply Rle_trans with (s * fxr (m1 + e1) * fxr (m2 + e2)); [apply Rmult_le_compat; try apply Rabs_pos; assumption|]. rewrite Rmult_assoc. apply Rmult_le_compat_l; lra.
Qed.
End Rules.
(** the factor on the right operand *)
Lemma AP_mulc F (HF : (8 <= ew F)%Z) s un (HS : scal F s un) x y a b ba bb bc : AP F 1 x a ba -> AP F s y b bb -> bmul F un bb ba = bc ->
  ((0 <=? ber bb) && (0 <=? ber ba) && (cdiv ((mg bb + ber bb) * (mg ba + ber ba)) SC <=? cap))%Z = true -> AP F s (fmul F x y) (a * b) bc.
Proof.
  intros Hx Hy E C. pose proof (AP_mul F HF s un HS y x b a bb ba bc Hy Hx E C) as H.
  assert (V : exists sz sz', rounds_to F (val F y * val F x) sz (fmul F y x) /\ rounds_to F (val F y * val F x) sz' (fmul F x y)).
  { do 2 eexists. split; [exact (fmul_spec F y x (AP_fin _ _ _ _ _ Hy) (AP_fin _ _ _ _ _ Hx))|]. rewrite Rmult_comm. exact (fmul_spec F x y (AP_fin _ _ _ _ _ Hx) (AP_fin _ _ _ _ _ Hy)). }
  destruct V as (sz & sz' & [_ V1] & [B2 V2]). rewrite (Rmult_comm a b). destruct bc as [[l h] er]. destruct H as ((_ & Ff) & H1 & H2).
  destruct (Rlt_bool _ _).
  - destruct V1 as (_ & V1 & _). destruct V2 as (F2 & V2 & _). rewrite V1 in H2. split; [split; [exact B2|exact F2]|]. split; [exact H1|]. now rewrite V2.
  - exfalso. rewrite V1 in Ff. pose proof (proj1 (proj2 (infinity_fields F (Rlt_bool (val F y * val F x) 0)))) as I. rewrite (finite_not_inf _ _ Ff) in I. discriminate.
Qed.
Definition litq (F : fmt) (c : Z) : Z * Z :=
  let e := expf F c in let m := sigf F c in let k := (Z.max e 1 - bias F - mw F)%Z in
  let M := (if e =? 0 then m else 2 ^ mw F + m)%Z in let M := (if signbit F c then - M else M)%Z in
  (if k <? 0 then (M, 2 ^ (- k)) else (M * 2 ^ k, 1))%Z.
Definition bconst (F : fmt) (c : Z) : bnd := let '(n, d) := litq F c in (fdv (n * SC) d, cdiv (n * SC) d, 0)%Z.
Lemma AP_const F c n d bc : litq F c = (n, d) -> litb F c n d = true -> ((0 <=? c)%Z && (c <? 2 ^ width F)%Z) && finite F c = true -> bconst F c = bc -> AP F 1 c (IZR n / IZR d) bc.
Proof.
  intros E L Fc <-. apply andb_prop in Fc as [Bc Fc]. assert (isbits F c) by (apply andb_prop in Bc as [Bc1 Bc2]; apply Z.leb_le in Bc1; apply Z.ltb_lt in Bc2; now split). unfold bconst. rewrite E. pose proof (val_lit F c n d L) as V. assert (D : (0 < d)%Z) by (unfold litb in L; cbv zeta in L; apply andb_prop in L as [L _]; now apply Z.ltb_lt).
  assert (0 < IZR d) by (apply (IZR_lt 0); lia). pose proof SC_pos. split; [split; assumption|]. split.
  - pose proof (fdiv_le (n * SC) d D) as A. pose proof (cdiv_ge (n * SC) d D) as B. rewrite mult_IZR in *. unfold fxr.
    split; apply Rmult_le_reg_r with (IZR SC); try assumption; [replace (IZR (fdv (n * SC) d) / IZR SC * IZR SC) with (IZR (fdv (n * SC) d)) by (field; lra)|replace (IZR (cdiv (n * SC) d) / IZR SC * IZR SC) with (IZR (cdiv (n * SC) d)) by (field; lra)]; unfold Rdiv in *; lra.
  - rewrite V, fxr_0. rewrite Rmult_1_l, Rmult_0_r. unfold Rdiv. replace (IZR n * / IZR d - IZR n * / IZR d) with 0 by ring. rewrite Rabs_R0. lra.
Qed.
Lemma AP_neg F s x a ba bc : AP F s x a ba -> bneg ba = bc -> AP F s (Format.fneg F x) (- a) bc.
Proof.
  intros H <-. destruct ba as [[l h] er]. destruct H as ((B & Fx) & H1 & H2). split; [split; [apply fneg_fields, B|now rewrite fneg_finite]|]. rewrite !fxr_opp. split; [lra|].
  rewrite fneg_val by assumption. replace (- val F x - s * - a) with (- (val F x - s * a)) by ring. now rewrite Rabs_Ropp.
Qed.
Lemma scal64 : scal f64 1 1.
Proof.
  split; [lra|]. split; [discriminate|]. rewrite Rmult_1_l. replace (fxr 1) with (bpow radix2 (-200)). { apply bpow_le. vm_compute. discriminate. }
  unfold fxr, SC. change (bpow radix2 (-200)) with (/ IZR (2 ^ 200)). lra.
Qed.
Lemma scal32 : scal f32 1 (2 ^ 50).
Proof.
  split; [lra|]. split; [discriminate|]. rewrite Rmult_1_l. apply Req_le. change (bpow radix2 (emin f32 - 1)) with (/ IZR (2 ^ 150)).
  unfold fxr, SC. change (2 ^ 200)%Z with (2 ^ 150 * 2 ^ 50)%Z. rewrite mult_IZR. field. split; apply not_0_IZR; discriminate.
Qed.
Ltac vmr := lazymatch goal with |- ?t = _ => let v := eval vm_compute in t in exact (@eq_refl _ v <: t = v) end.
Ltac apx_ew := vm_compute; discriminate.
Ltac apx_s := lazymatch goal with |- scal f64 1 _ => exact scal64 | |- scal f32 1 _ => exact scal32 | |- scal _ _ _ => eassumption end.
Ltac apx_hyp := match goal with H : AP ?F ?s ?e _ _ |- AP ?F' ?s' ?e' _ _ => constr_eq e e'; constr_eq s s'; exact H end.
Ltac apx_go :=
  first [apx_hyp |
  lazymatch goal with
  | |- AP ?F ?s (fadd ?F ?a ?b) _ _ => eapply (AP_add F); [apx_ew|apx_s|apx_go|apx_go|vmr|vmr]
  | |- AP ?F ?s (fsub ?F ?a ?b) _ _ => eapply (AP_sub F); [apx_ew|apx_s|apx_go|apx_go|vmr|vmr]
  | |- AP ?F 1 (fmul ?F ?a ?b) _ _ => eapply (AP_mul F); [apx_ew|apx_s|apx_go|apx_go|vmr|vmr]
  | |- AP ?F ?s (fmul ?F ?a ?b) _ _ => first [eapply (AP_mul F); [apx_ew|apx_s|apx_go|apx_go|vmr|vmr] | eapply (AP_mulc F); [apx_ew|apx_s|apx_go|apx_go|vmr|vmr]]
  | |- AP ?F ?s (Format.fneg ?F ?a) _ _ => eapply (AP_neg F); [apx_go|vmr]
  | |- AP ?F 1 ?c _ _ => eapply (AP_const F); [vmr|vmr|vmr|vmr]
  end].
(** [apx F s e K]: K bounds the error of [e] *)
Ltac apx F s e K := let r := fresh "r" in let b := fresh "b" in evar (r : R); evar (b : bnd); assert (K : AP F s e r b);
  [subst r b; apx_go | let r' := eval unfold r in r in let b' := eval unfold b in b in change r with r' in K; change b with b' in K; clear r b].
