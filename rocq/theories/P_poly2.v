(** Bounds on polynomials over an interval, by recentring: the polynomial is expanded around the middle of each piece, so that the width of the bound is governed by the true derivative. *)
From Coq Require Import ZArith Reals Lia Lra Bool List Psatz.
From Flocq Require Import Core.
From Verif Require Import P_apx P_poly.
Import ListNotations.
Open Scope R_scope.

Fixpoint rpe (c : list R) (z : R) : R := match c with nil => 0 | q :: c => q + z * rpe c z end.
(** the polynomial function [f] has coefficients in the intervals [p] *)
Definition Pol (p : list iv) (f : R -> R) : Prop := exists cs, Forall2 inI p cs /\ forall z, f z = rpe cs z.
Fixpoint ladd (a b : list iv) : list iv := match a, b with nil, b => b | a, nil => a | x :: a, y :: b => iadd x y :: ladd a b end.
Definition lscale (i : iv) (p : list iv) : list iv := map (imul i) p.
Fixpoint lmul (a b : list iv) : list iv := match a with nil => nil | q :: a => ladd (lscale q b) ((0, 0)%Z :: lmul a b) end.
Definition lneg (p : list iv) : list iv := map (fun i => (- snd i, - fst i)%Z) p.
Fixpoint lshift (p : list iv) (z : iv) : list iv := match p with nil => nil | q :: p => let s := lshift p z in ladd (q :: s) (lscale z s) end.
Lemma in0 : inI (0, 0)%Z 0. Proof. unfold inI. cbn [fst snd]. rewrite fxr_0. lra. Qed.
Lemma ladd_ok a : forall b ca cb, Forall2 inI a ca -> Forall2 inI b cb -> exists c, Forall2 inI (ladd a b) c /\ forall z, rpe c z = rpe ca z + rpe cb z.
Proof.
  induction a as [|x a IH]; intros b ca cb Ha Hb; inversion Ha; subst; cbn [ladd].
  - exists cb. split; [exact Hb|]. intros z. cbn [rpe]. ring.
  - inversion Hb; subst.
    + exists (y :: l'). split; [exact Ha|]. intros z. cbn [rpe]. ring.
    + destruct (IH l l' l'0 ltac:(assumption) ltac:(assumption)) as (c & C & E). exists (y + y0 :: c). split; [constructor; [now apply iadd_ok|exact C]|]. intros z. cbn [rpe]. rewrite E. ring.
Qed.
Lemma lscale_ok i r b cb : inI i r -> Forall2 inI b cb -> Forall2 inI (lscale i b) (map (Rmult r) cb) /\ forall z, rpe (map (Rmult r) cb) z = r * rpe cb z.
Proof.
  intros Hi H. induction H as [|x y l l' Hx H [IH1 IH2]]; cbn [lscale map rpe].
  - split; [constructor|intros; ring].
  - split; [constructor; [now apply imul_ok|exact IH1]|]. intros z. rewrite IH2. ring.
Qed.
Lemma PB_add a b f g : Pol a f -> Pol b g -> Pol (ladd a b) (fun z => f z + g z).
Proof. intros (ca & Ha & Ef) (cb & Hb & Eg). destruct (ladd_ok a b ca cb Ha Hb) as (c & C & E). exists c. split; [exact C|]. intros z. now rewrite Ef, Eg, E. Qed.
Lemma PB_neg a f : Pol a f -> Pol (lneg a) (fun z => - f z).
Proof.
  intros (ca & Ha & Ef). exists (map Ropp ca). split.
  - unfold lneg. clear Ef. induction Ha as [|x y l l' Hx H IH]; cbn [map]; constructor; [|exact IH]. unfold inI in *. cbn [fst snd]. rewrite !fxr_opp. lra.
  - intros z. rewrite Ef. clear. induction ca as [|q ca IH]; cbn [map rpe]; [ring|]. rewrite <- IH. ring.
Qed.
Lemma PB_mul a b f g : Pol a f -> Pol b g -> Pol (lmul a b) (fun z => f z * g z).
Proof.
  intros (ca & Ha & Ef) (cb & Hb & Eg). assert (H : exists c, Forall2 inI (lmul a b) c /\ forall z, rpe c z = rpe ca z * rpe cb z).
  { clear f g Ef Eg. induction Ha as [|x y l l' Hx H (c & C & E)]; cbn [lmul].
    - exists nil. split; [constructor|]. intros z. cbn [rpe]. ring.
    - destruct (lscale_ok x y b cb Hx Hb) as [S1 S2]. destruct (ladd_ok _ ((0, 0)%Z :: lmul l b) _ (0 :: c) S1) as (d & D & F); [constructor; [exact in0|exact C]|].
      exists d. split; [exact D|]. intros z. rewrite F, S2. cbn [rpe]. rewrite E. ring. }
  destruct H as (c & C & E). exists c. split; [exact C|]. intros z. now rewrite Ef, Eg, E.
Qed.
Lemma PB_shift p f zi z0 : Pol p f -> inI zi z0 -> Pol (lshift p zi) (fun t => f (z0 + t)).
Proof.
  intros (cp & Hp & Ef) Hz. assert (H : exists c, Forall2 inI (lshift p zi) c /\ forall t, rpe c t = rpe cp (z0 + t)).
  { clear f Ef. induction Hp as [|x y l l' Hx H (c & C & E)]; cbn [lshift].
    - exists nil. split; [constructor|]. intros z. reflexivity.
    - destruct (lscale_ok zi z0 _ c Hz C) as [S1 S2]. destruct (ladd_ok (x :: lshift l zi) _ (y :: c) _ ltac:(constructor; assumption) S1) as (d & D & F).
      exists d. split; [exact D|]. intros t. rewrite F, S2. cbn [rpe]. rewrite E. ring. }
  destruct H as (c & C & E). exists c. split; [exact C|]. intros t. now rewrite Ef, E.
Qed.
Lemma PB_horner p f zi z : Pol p f -> inI zi z -> inI (horner p zi) (f z).
Proof.
  intros (cp & Hp & Ef) Hz. rewrite Ef. clear f Ef. induction Hp as [|x y l l' Hx H IH]; cbn [horner rpe]; [exact in0|]. apply iadd_ok; [exact Hx|]. now apply imul_ok.
Qed.
Lemma PB_poly c : pok c = true -> Pol (map iq c) (peval c).
Proof.
  intros H. exists (map (fun q => IZR (fst q) / IZR (snd q)) c). split.
  - induction c as [|q c IH]; cbn [map]; [constructor|]. cbn [pok forallb] in H. apply andb_prop in H as [H1 H2]. apply Z.ltb_lt in H1. constructor; [now apply iq_ok|now apply IH].
  - intros z. clear H. induction c as [|q c IH]; cbn [map peval rpe]; [reflexivity|]. now rewrite IH.
Qed.
Lemma PB_ext p f g : Pol p f -> (forall z, g z = f z) -> Pol p g.
Proof. intros (c & C & E) H. exists c. split; [exact C|]. intros z. now rewrite H. Qed.
(** pieces of half width [h], the first one centred at [z] *)
Fixpoint pieces2 (p : list iv) (z h : Z) (n : nat) (lo hi : Z) : bool :=
  match n with O => true | S n => isub (horner (lshift p (z, z)) (- h, h)%Z) lo hi && pieces2 p (z + 2 * h)%Z h n lo hi end.
Lemma pieces2_ok p f h lo hi n : Pol p f -> (0 <= h)%Z -> forall z x, (0 < n)%nat -> pieces2 p z h n lo hi = true -> fxr (z - h) <= x <= fxr (z + (2 * Z.of_nat n - 1) * h) -> fxr lo <= f x <= fxr hi.
Proof.
  intros P Hh. induction n as [|n IH]; intros z x N H Hx; [lia|]. cbn [pieces2] in H. apply andb_prop in H as [H1 H2].
  destruct (Rle_lt_dec x (fxr (z + h))) as [L | L].
  - assert (I : inI (- h, h)%Z (x - fxr z)) by (unfold inI; cbn [fst snd]; rewrite fxr_opp; rewrite fxr_sub in Hx; rewrite fxr_add in L; lra).
    assert (Iz : inI (z, z) (fxr z)) by (unfold inI; cbn [fst snd]; lra).
    pose proof (PB_horner _ _ _ _ (PB_shift p f (z, z) (fxr z) P Iz) I) as [A B]. cbv beta in A, B. replace (fxr z + (x - fxr z)) with x in A, B by ring.
    unfold isub in H1. apply andb_prop in H1 as [H3 H4]. apply Z.leb_le, fxr_le in H3. apply Z.leb_le, fxr_le in H4. lra.
  - destruct n as [|n]; [exfalso; replace (z + (2 * Z.of_nat 1 - 1) * h)%Z with (z + h)%Z in Hx by lia; lra|].
    apply (IH (z + 2 * h)%Z); [lia|exact H2|]. replace (z + 2 * h - h)%Z with (z + h)%Z by lia. replace (z + 2 * h + (2 * Z.of_nat (S n) - 1) * h)%Z with (z + (2 * Z.of_nat (S (S n)) - 1) * h)%Z by lia. lra.
Qed.
