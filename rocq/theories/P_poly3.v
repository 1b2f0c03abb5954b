(** Bounds on polynomials over an interval with additions only: the coefficients are scaled once so that the pieces have length one, and the polynomial is then moved from the middle of one piece to the middle of the next
    by adding coefficients. The rounding of the scaled coefficients is accounted for once. *)
From Coq Require Import ZArith Reals Lia Lra Bool List Psatz.
From Flocq Require Import Core.
From Verif Require Import P_apx P_poly P_poly2.
Import ListNotations.
Open Scope R_scope.

(** f(w t), for the polynomial f with coefficients in [p] *)
Fixpoint lpow (i w : iv) (p : list iv) : list iv := match p with nil => nil | q :: p => imul q i :: lpow (imul i w) w p end.
Lemma PB_pow p f wi w : Pol p f -> inI wi w -> Pol (lpow (SC, SC) wi p) (fun t => f (w * t)).
Proof.
  intros (cp & Hp & Ef) Hw. assert (H : forall i k, inI i k -> exists c, Forall2 inI (lpow i wi p) c /\ forall t, rpe c t = k * rpe cp (w * t)).
  { clear f Ef. induction Hp as [|x y l l' Hx H IH]; intros i k Hk; cbn [lpow].
    - exists nil. split; [constructor|]. intros t. cbn [rpe]. ring.
    - destruct (IH _ _ (imul_ok _ _ _ _ Hk Hw)) as (c & C & E). exists (y * k :: c). split; [constructor; [now apply imul_ok|exact C]|]. intros t. cbn [rpe]. rewrite E. ring. }
  destruct (H (SC, SC) 1) as (c & C & E). { unfold inI, fxr. cbn [fst snd]. pose proof SC_pos. replace (IZR SC / IZR SC) with 1 by (field; lra). lra. }
  exists c. split; [exact C|]. intros t. rewrite Ef, E. ring.
Qed.
(** the integer polynomial made of the lower bounds, and the rest *)
Fixpoint lerr (p : list iv) (V : Z) : Z := match p with nil => 0%Z | q :: p => (snd q - fst q + V * lerr p V)%Z end.
Definition zpe (c : list Z) (t : R) : R := rpe (map fxr c) t.
Lemma lerr_ok p cs : Forall2 inI p cs -> forall V t, (0 <= V)%Z -> Rabs t <= IZR V -> Rabs (rpe cs t - zpe (map fst p) t) <= fxr (lerr p V).
Proof.
  intros H V t HV Ht. induction H as [|x y l l' Hx H IH]; cbn [lerr map]; unfold zpe in *; cbn [map rpe].
  - rewrite Rminus_0_r, Rabs_R0, fxr_0. lra.
  - rewrite fxr_add, fxr_sub. replace (fxr (V * lerr l V)) with (IZR V * fxr (lerr l V)) by (unfold fxr; rewrite mult_IZR; unfold Rdiv; ring).
    replace (y + t * rpe l' t - (fxr (fst x) + t * rpe (map fxr (map fst l)) t)) with ((y - fxr (fst x)) + t * (rpe l' t - rpe (map fxr (map fst l)) t)) by ring.
    eapply Rle_trans; [apply Rabs_triang|]. rewrite Rabs_mult. destruct Hx as [X1 X2]. apply Rplus_le_compat; [rewrite Rabs_pos_eq; lra|].
    apply Rmult_le_compat; try apply Rabs_pos; assumption.
Qed.
(** moving by one *)
Fixpoint zadd (a b : list Z) : list Z := match a, b with nil, b => b | a, nil => a | x :: a, y :: b => (x + y)%Z :: zadd a b end.
Fixpoint zshift (c : list Z) : list Z := match c with nil => nil | q :: c => let s := zshift c in zadd (q :: s) s end.
Lemma zadd_ok a : forall b t, zpe (zadd a b) t = zpe a t + zpe b t.
Proof.
  unfold zpe. induction a as [|x a IH]; intros [|y b] t; cbn [zadd map rpe]; try ring. rewrite IH, fxr_add. ring.
Qed.
Lemma zshift_ok c : forall t, zpe (zshift c) t = zpe c (1 + t).
Proof.
  induction c as [|q c IH]; intros t; [reflexivity|]. cbn [zshift]. rewrite zadd_ok. unfold zpe in *. cbn [map rpe]. rewrite IH. ring.
Qed.
(** a bound for |t q(t)| with |t| <= 1/2 *)
Fixpoint ztail (c : list Z) : Z := match c with nil => 0%Z | q :: c => (Z.div2 (Z.abs q + ztail c) + 1)%Z end.
Lemma ztail_ok c t : Rabs t <= / 2 -> Rabs (t * zpe c t) <= fxr (ztail c).
Proof.
  intros Ht. induction c as [|q c IH]; cbn [ztail]; unfold zpe in *; cbn [map rpe].
  - rewrite Rmult_0_r, Rabs_R0, fxr_0. lra.
  - assert (L : (Z.abs q + ztail c <= 2 * (Z.div2 (Z.abs q + ztail c) + 1))%Z) by (pose proof (Z.div2_odd (Z.abs q + ztail c)) as D; destruct (Z.odd (Z.abs q + ztail c)); cbn [Z.b2z] in D; lia).
    apply fxr_le in L. set (T := (Z.div2 (Z.abs q + ztail c) + 1)%Z) in *. replace (2 * T)%Z with (T + T)%Z in L by lia. rewrite !fxr_add, fxr_abs in L.
    rewrite Rabs_mult. pose proof (Rabs_triang (fxr q) (t * rpe (map fxr c) t)). pose proof (Rabs_pos t). pose proof (Rabs_pos (fxr q + t * rpe (map fxr c) t)). nra.
Qed.
Definition zchk (c : list Z) (lo hi : Z) : bool := match c with nil => ((lo <=? 0) && (0 <=? hi))%Z | q :: c => let r := ztail c in ((lo <=? q - r) && (q + r <=? hi))%Z end.
Lemma zchk_ok c lo hi t : zchk c lo hi = true -> Rabs t <= / 2 -> fxr lo <= zpe c t <= fxr hi.
Proof.
  intros H Ht. destruct c as [|q c]; cbn [zchk] in H; apply andb_prop in H as [H1 H2]; apply Z.leb_le, fxr_le in H1, H2.
  - unfold zpe. cbn [map rpe]. rewrite fxr_0 in *. lra.
  - pose proof (ztail_ok c t Ht) as B. apply Rabs_le_inv in B. rewrite fxr_sub in H1. rewrite fxr_add in H2. unfold zpe in *. cbn [map rpe]. lra.
Qed.
Fixpoint zrun (c : list Z) (n : nat) (lo hi : Z) : bool := zchk c lo hi && match n with O => true | S n => zrun (zshift c) n lo hi end.
Lemma zrun_ok n : forall c lo hi t, zrun c n lo hi = true -> - / 2 <= t <= INR n + / 2 -> fxr lo <= zpe c t <= fxr hi.
Proof.
  induction n as [|n IH]; intros c lo hi t H Ht; cbn [zrun] in H; apply andb_prop in H as [H1 H2].
  - apply zchk_ok; [exact H1|]. cbn in Ht. apply Rabs_le. lra.
  - destruct (Rle_lt_dec t (/ 2)) as [L|L]; [apply zchk_ok; [exact H1|apply Rabs_le; lra]|].
    specialize (IH _ _ _ (t - 1) H2). rewrite zshift_ok in IH. replace (1 + (t - 1)) with t in IH by ring. apply IH. rewrite S_INR in Ht. lra.
Qed.
(** 64 more bits *)
Definition more (z : Z) : Z := (z * 2 ^ 64)%Z.
Definition lmore (p : list iv) : list iv := map (fun i => (more (fst i), more (snd i))) p.
Lemma fxr_more z : fxr (more z) = IZR (2 ^ 64) * fxr z. Proof. unfold fxr, more. rewrite mult_IZR. unfold Rdiv. ring. Qed.
Lemma PB_more p f : Pol p f -> Pol (lmore p) (fun t => IZR (2 ^ 64) * f t).
Proof.
  intros (cp & Hp & Ef). exists (map (Rmult (IZR (2 ^ 64))) cp). assert (K : 0 < IZR (2 ^ 64)) by (apply (IZR_lt 0); reflexivity). split.
  - clear Ef. induction Hp as [|x y l l' Hx H IH]; cbn [lmore map]; constructor; [|exact IH]. unfold inI in *. cbn [fst snd]. rewrite !fxr_more. split; apply Rmult_le_compat_l; lra.
  - intros t. rewrite Ef. clear. induction cp as [|q cp IH]; cbn [map rpe]; [ring|]. rewrite <- IH. ring.
Qed.
(** pieces of half width [h], the first one centred at [z]; same meaning as [pieces2] *)
Definition pieces3 (p : list iv) (z h : Z) (n : nat) (lo hi : Z) : bool :=
  match n with O => true | S m =>
    let p := lpow (SC, SC) (2 * h, 2 * h)%Z (lmore (lshift p (z, z))) in let e := lerr p (Z.of_nat (S m)) in (0 <? h)%Z && zrun (map fst p) m (more lo + e) (more hi - e) end.
Lemma pieces3_ok p f h lo hi n : Pol p f -> (0 <= h)%Z -> forall z x, (0 < n)%nat -> pieces3 p z h n lo hi = true -> fxr (z - h) <= x <= fxr (z + (2 * Z.of_nat n - 1) * h) -> fxr lo <= f x <= fxr hi.
Proof.
  intros P Hh z x N H Hx. destruct n as [|m]; [lia|]. unfold pieces3 in H. cbv zeta in H. apply andb_prop in H as [H0 H]. apply Z.ltb_lt in H0.
  assert (Iz : inI (z, z) (fxr z)) by (unfold inI; cbn [fst snd]; lra). assert (Iw : inI (2 * h, 2 * h)%Z (fxr (2 * h))) by (unfold inI; cbn [fst snd]; lra).
  pose proof (PB_pow _ _ _ _ (PB_more _ _ (PB_shift p f (z, z) (fxr z) P Iz)) Iw) as (cs & HC & E). cbv beta in E.
  set (q := lpow (SC, SC) (2 * h, 2 * h)%Z (lmore (lshift p (z, z)))) in *. set (e := lerr q (Z.of_nat (S m))) in *.
  assert (W : 0 < fxr (2 * h)). { unfold fxr. apply Rdiv_lt_0_compat; [apply (IZR_lt 0); lia|apply SC_pos]. }
  set (t := (x - fxr z) / fxr (2 * h)). assert (Ex : x = fxr z + fxr (2 * h) * t) by (unfold t; field; lra).
  assert (Ht : - / 2 <= t <= INR m + / 2).
  { assert (W2 : fxr h = fxr (2 * h) / 2) by (replace (2 * h)%Z with (h + h)%Z by lia; rewrite fxr_add; field).
    rewrite fxr_sub, fxr_add in Hx. replace (fxr ((2 * Z.of_nat (S m) - 1) * h)) with ((2 * INR m + 1) * fxr h) in Hx.
    2:{ unfold fxr. rewrite mult_IZR, minus_IZR, mult_IZR, Nat2Z.inj_succ, succ_IZR, <- INR_IZR_INZ. unfold Rdiv. ring. }
    rewrite W2 in Hx. set (w := fxr (2 * h)) in *. split; apply Rmult_le_reg_l with w; try assumption; replace (w * t) with (x - fxr z) by lra; nra. }
  rewrite Ex. pose proof (lerr_ok q cs HC (Z.of_nat (S m)) t ltac:(lia)) as L.
  assert (TT : Rabs t <= IZR (Z.of_nat (S m))) by (rewrite <- INR_IZR_INZ, S_INR; apply Rabs_le; pose proof (pos_INR m); lra). specialize (L TT). fold e in L.
  pose proof (zrun_ok m _ _ _ t H Ht) as R. rewrite fxr_add, fxr_sub, !fxr_more in R. apply Rabs_le_inv in L. specialize (E t). assert (K : 0 < IZR (2 ^ 64)) by (apply (IZR_lt 0); reflexivity). rewrite <- E in L.
  split; apply Rmult_le_reg_l with (IZR (2 ^ 64)); try assumption; lra.
Qed.
(** the polynomial [c] on [0, 2 n h] *)
Definition pcheck3 (c : poly) (h : Z) (n : nat) (lo hi : Z) : bool := (0 <=? h)%Z && pok c && pieces3 (map iq c) h h n lo hi.
Lemma pcheck3_ok c h n lo hi b x : pcheck3 c h n lo hi = true -> (0 < n)%nat -> (b =? 2 * Z.of_nat n * h)%Z = true -> fxr 0 <= x <= fxr b -> fxr lo <= peval c x <= fxr hi.
Proof.
  unfold pcheck3. rewrite !andb_true_iff, Z.leb_le. intros [[W P] H] N Hb Hx. apply Z.eqb_eq in Hb. apply (pieces3_ok _ _ h lo hi n (PB_poly c P) W h x N H).
  replace (h - h)%Z with 0%Z by lia. replace (h + (2 * Z.of_nat n - 1) * h)%Z with b by lia. exact Hx.
Qed.
