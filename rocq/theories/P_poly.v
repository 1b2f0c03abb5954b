(** Bounds of polynomials with rational coefficients on an interval, by Horner evaluation in interval arithmetic on equal pieces. *)
From Coq Require Import ZArith Reals Lia Lra Bool List Psatz.
From Flocq Require Import Core.
From Verif Require Import Base Spec P_apx.
Import ListNotations.
Open Scope R_scope.

Definition iv := (Z * Z)%type.
Definition inI (i : iv) (r : R) : Prop := fxr (fst i) <= r <= fxr (snd i).
Definition imul (a b : iv) : iv := let '(l1, h1) := a in let '(l2, h2) := b in
  let p1 := (l1 * l2)%Z in let p2 := (l1 * h2)%Z in let p3 := (h1 * l2)%Z in let p4 := (h1 * h2)%Z in (Z.shiftr (min4 p1 p2 p3 p4) 200, - Z.shiftr (- max4 p1 p2 p3 p4) 200)%Z.
Definition iadd (a b : iv) : iv := (fst a + fst b, snd a + snd b)%Z.
Definition iq (q : Z * Z) : iv := (fdv (fst q * SC) (snd q), cdiv (fst q * SC) (snd q))%Z.
Lemma imul_ok a b x y : inI a x -> inI b y -> inI (imul a b) (x * y).
Proof. destruct a as [l1 h1], b as [l2 h2]. intros A B. unfold imul. rewrite !Z.shiftr_div_pow2 by lia. pose proof (mul_range x y l1 h1 l2 h2 A B) as Q. cbv zeta in Q. unfold cdiv in Q. rewrite !fdv_eq in Q. exact Q. Qed.
Lemma iadd_ok a b x y : inI a x -> inI b y -> inI (iadd a b) (x + y).
Proof. unfold inI, iadd. cbn [fst snd]. rewrite !fxr_add. lra. Qed.
Lemma fxr_q n d : (0 < d)%Z -> fxr (fdv (n * SC) d) <= IZR n / IZR d <= fxr (cdiv (n * SC) d).
Proof.
  intros D. assert (0 < IZR d) by (apply (IZR_lt 0); lia). pose proof SC_pos. pose proof (fdiv_le (n * SC) d D) as A. pose proof (cdiv_ge (n * SC) d D) as B. rewrite mult_IZR in *. unfold fxr.
  split; apply Rmult_le_reg_r with (IZR SC); try assumption; [replace (IZR (fdv (n * SC) d) / IZR SC * IZR SC) with (IZR (fdv (n * SC) d)) by (field; lra)|replace (IZR (cdiv (n * SC) d) / IZR SC * IZR SC) with (IZR (cdiv (n * SC) d)) by (field; lra)]; unfold Rdiv in *; lra.
Qed.
Lemma iq_ok q : (0 < snd q)%Z -> inI (iq q) (IZR (fst q) / IZR (snd q)).
Proof. intros H. now apply fxr_q. Qed.
Definition poly := list (Z * Z).
Fixpoint peval (c : poly) (z : R) : R := match c with nil => 0 | q :: c => IZR (fst q) / IZR (snd q) + z * peval c z end.
Fixpoint horner (c : list iv) (z : iv) : iv := match c with nil => (0, 0)%Z | q :: c => iadd q (imul z (horner c z)) end.
Definition pok (c : poly) : bool := forallb (fun q => 0 <? snd q)%Z c.
Lemma horner_ok c zi z : pok c = true -> inI zi z -> inI (horner (map iq c) zi) (peval c z).
Proof.
  intros P Hz. induction c as [|q c IH]; cbn [map horner peval].
  - unfold inI. cbn [fst snd]. rewrite fxr_0. lra.
  - cbn [pok forallb] in P. apply andb_prop in P as [P1 P2]. apply Z.ltb_lt in P1. apply iadd_ok; [now apply iq_ok|apply imul_ok; [exact Hz|now apply IH]].
Qed.
Definition isub (i : iv) (lo hi : Z) : bool := ((lo <=? fst i) && (snd i <=? hi))%Z.
Fixpoint pieces (c : list iv) (z w : Z) (n : nat) (lo hi : Z) : bool :=
  match n with O => true | S n => isub (horner c (z, z + w))%Z lo hi && pieces c (z + w)%Z w n lo hi end.
Definition pcheck (c : poly) (z w : Z) (n : nat) (lo hi : Z) : bool := (0 <=? w)%Z && pok c && pieces (map iq c) z w n lo hi.
Lemma pieces_ok c w lo hi n : (0 <= w)%Z -> pok c = true -> forall z x, (0 < n)%nat -> pieces (map iq c) z w n lo hi = true -> fxr z <= x <= fxr (z + Z.of_nat n * w) -> fxr lo <= peval c x <= fxr hi.
Proof.
  intros W P. induction n as [|n IH]; intros z x N H Hx; [lia|]. cbn [pieces] in H. apply andb_prop in H as [H1 H2].
  destruct (Rle_lt_dec x (fxr (z + w))) as [L | L].
  - pose proof (horner_ok c (z, z + w)%Z x P (conj (proj1 Hx) L)) as [A B]. unfold isub in H1. apply andb_prop in H1 as [H3 H4]. apply Z.leb_le, fxr_le in H3. apply Z.leb_le, fxr_le in H4. lra.
  - destruct n as [|n]; [exfalso; replace (z + Z.of_nat 1 * w)%Z with (z + w)%Z in Hx by lia; lra|].
    apply (IH (z + w)%Z); [lia|exact H2|]. split; [lra|]. replace (z + w + Z.of_nat (S n) * w)%Z with (z + Z.of_nat (S (S n)) * w)%Z by lia. apply Hx.
Qed.
Lemma pcheck_ok c z w n lo hi x : pcheck c z w n lo hi = true -> (0 < n)%nat -> fxr z <= x <= fxr (z + Z.of_nat n * w) -> fxr lo <= peval c x <= fxr hi.
Proof. unfold pcheck. rewrite !andb_true_iff, Z.leb_le. intros [[W P] H] N Hx. now apply (pieces_ok c w lo hi n W P z x N H Hx). Qed.
Lemma fxr_pow k : (0 <= k <= 200)%Z -> fxr (2 ^ (200 - k)) = bpow radix2 (- k).
Proof.
  intros H. unfold fxr, SC. change 2%Z with (radix_val radix2). rewrite !IZR_Zpower by lia. unfold Rdiv. rewrite <- bpow_opp, <- bpow_plus. f_equal. lia.
Qed.
Definition pneg (b : poly) : poly := map (fun q => (- fst q, snd q)%Z) b.
Fixpoint padd (a b : poly) : poly :=
  match a, b with
  | nil, _ => b
  | _, nil => a
  | p :: a, q :: b => (fst p * snd q + fst q * snd p, snd p * snd q)%Z :: padd a b
  end.
Definition psub (a b : poly) : poly := padd a (pneg b).
Lemma padd_ok a : forall b z, pok a = true -> pok b = true -> peval (padd a b) z = peval a z + peval b z.
Proof.
  induction a as [|p a IH]; intros [|q b] z Pa Pb; cbn [padd peval]; try ring.
  cbn [pok forallb] in Pa, Pb. apply andb_prop in Pa as [Q1 Q2]. apply andb_prop in Pb as [Q3 Q4]. apply Z.ltb_lt in Q1, Q3. rewrite IH by assumption. cbn [fst snd].
  rewrite plus_IZR, !mult_IZR. field. split; apply not_0_IZR; lia.
Qed.
Lemma pneg_ok b z : peval (pneg b) z = - peval b z.
Proof. induction b as [|q b IH]; cbn [pneg map peval]; [ring|]. fold (pneg b). rewrite IH. cbn [fst snd]. rewrite opp_IZR. unfold Rdiv. ring. Qed.
Lemma psub_ok a b z : pok a = true -> pok b = true -> peval (psub a b) z = peval a z - peval b z.
Proof.
  intros Pa Pb. unfold psub. rewrite padd_ok, pneg_ok; [ring|exact Pa|]. clear Pa. induction b as [|q b IH]; [reflexivity|]. cbn [pok pneg map forallb snd] in *. apply andb_prop in Pb as [Q1 Q2]. rewrite Q1. now apply IH.
Qed.
