(** Tools for the analysis of [pow] and [powf]: truncated significands, reciprocals and changes of scale in the running error analysis. *)
From Coq Require Import ZArith Reals Lia Lra Bool List Psatz.
From Flocq Require Import Core.
From Verif Require Import Base Spec Format P_format Ieee P_ieee P_real P_neg P_key P_elem P_lit P_err P_apx.
Open Scope R_scope.

(** ** Clearing the low bits of a pattern *)
Lemma mkbits_mod F s e m k : (0 <= k <= mw F)%Z -> (mkbits F s e m mod 2 ^ k = m mod 2 ^ k)%Z.
Proof.
  intros K. unfold mkbits. pose proof (fmt_facts F) as FF.
  replace (mw F + ew F)%Z with ((mw F - k + ew F) + k)%Z by ring. replace (mw F) with ((mw F - k) + k)%Z at 2 by ring.
  rewrite !Z.pow_add_r by lia. set (P := (2 ^ k)%Z). assert (0 < P)%Z by (apply Z.pow_pos_nonneg; lia).
  replace ((if s then 2 ^ (mw F - k) * 2 ^ ew F * P else 0) + e * (2 ^ (mw F - k) * P) + m)%Z with (m + ((if s then 2 ^ (mw F - k) * 2 ^ ew F else 0) + e * 2 ^ (mw F - k)) * P)%Z by (destruct s; ring).
  apply Z.mod_add. lia.
Qed.
(** [trc k x]: the [k] low bits cleared *)
Definition trc (k x : Z) : Z := (x - x mod 2 ^ k)%Z.
Lemma trunc_ok F k x : isbits F x -> finite F x = true -> (0 <= k <= mw F)%Z ->
  isbits F (trc k x) /\ finite F (trc k x) = true /\ Rabs (val F (trc k x) - val F x) <= bpow radix2 (k - mw F) * Rabs (val F x) + bpow radix2 (k + emin F) /\ Rabs (val F (trc k x)) <= Rabs (val F x).
Proof.
  intros B Fx K. set (t := trc k x). pose proof (fields_range F x) as [R1 R2]. pose proof (fields_split F x B) as FS. pose proof (fmt_facts F) as FF.
  assert (XM : (x mod 2 ^ k = sigf F x mod 2 ^ k)%Z) by (rewrite FS at 1; apply mkbits_mod; exact K).
  assert (P : (0 < 2 ^ k)%Z) by (apply Z.pow_pos_nonneg; lia). pose proof (Z.mod_pos_bound (sigf F x) (2 ^ k) P) as MB.
  pose proof (Z.mod_le (sigf F x) (2 ^ k) (proj1 R1) P) as ML.
  set (l := (sigf F x mod 2 ^ k)%Z) in *. assert (T : t = mkbits F (signbit F x) (expf F x) (sigf F x - l)) by (unfold t, trc; rewrite XM; rewrite FS at 1; unfold mkbits; ring).
  pose proof (mkbits_range F (signbit F x) (expf F x) (sigf F x - l) ltac:(lia) ltac:(lia)) as Bt. destruct (mkbits_fields F (signbit F x) (expf F x) (sigf F x - l)) as (St & Et & Mt); [lia|lia|].
  rewrite T. split; [exact Bt|]. split; [unfold finite in *; now rewrite Et|].
  unfold val. rewrite St, Et, Mt. rewrite !abs_sval || idtac. unfold mag_of.
  assert (L0 : 0 <= IZR l) by (apply IZR_le; lia). assert (L1 : IZR l <= bpow radix2 k) by (rewrite <- IZR_pow2 by lia; apply IZR_le; lia).
  assert (S0 : 0 <= IZR (sigf F x - l)) by (apply IZR_le; lia). assert (S1 : 0 <= IZR (sigf F x)) by (apply IZR_le; lia).
  set (s := signbit F x) in *. set (g := sigf F x) in *. set (e := expf F x) in *.
  assert (SV : forall r, 0 <= r -> Rabs (sval s r) = r). { intros r Hr. destruct s; cbn [sval]; rewrite ?Rabs_Ropp; now apply Rabs_pos_eq. }
  assert (SD : forall a b, 0 <= b - a -> Rabs (sval s a - sval s b) = b - a). { intros a b Hr. destruct s; cbn [sval]; [rewrite Rabs_pos_eq; lra|rewrite Rabs_left1; lra]. }
  destruct (e =? 0)%Z.
  - change (1 - bias F - mw F)%Z with (emin F). pose proof (bpow_gt_0 radix2 (emin F)) as G. rewrite minus_IZR in *.
    rewrite SD by nra. rewrite !SV by nra. split; [|nra]. rewrite (bpow_plus radix2 k (emin F)).
    assert (0 <= bpow radix2 (k - mw F) * (IZR g * bpow radix2 (emin F))) by (apply Rmult_le_pos; [apply bpow_ge_0|nra]). nra.
  - set (E := (e - bias F - mw F)%Z). pose proof (bpow_gt_0 radix2 E) as G. assert (P2 : IZR (2 ^ mw F) = bpow radix2 (mw F)) by (apply IZR_pow2; lia). rewrite !plus_IZR, minus_IZR in *. rewrite P2.
    pose proof (bpow_gt_0 radix2 (mw F)) as GM. rewrite SD by nra. rewrite !SV by nra. split; [|nra].
    pose proof (bpow_gt_0 radix2 (k + emin F)). enough ((bpow radix2 (mw F) + IZR g) * bpow radix2 E - (bpow radix2 (mw F) + (IZR g - IZR l)) * bpow radix2 E <= bpow radix2 (k - mw F) * ((bpow radix2 (mw F) + IZR g) * bpow radix2 E)) by lra.
    replace ((bpow radix2 (mw F) + IZR g) * bpow radix2 E - (bpow radix2 (mw F) + (IZR g - IZR l)) * bpow radix2 E) with (IZR l * bpow radix2 E) by ring.
    rewrite <- Rmult_assoc. apply Rmult_le_compat_r; [lra|]. rewrite Rmult_plus_distr_l, <- bpow_plus. replace (k - mw F + mw F)%Z with k by ring. pose proof (bpow_gt_0 radix2 (k - mw F)). nra.
Qed.
Definition btrc (F : fmt) (un k : Z) (b : bnd) : bnd := let '(l, h, e) := b in (l, h, e + cdiv (Z.max (Z.abs l) (Z.abs h) + e) (2 ^ (mw F - k)) + un * 2 ^ (k + 1))%Z.
Lemma AP_trc F s un k x r b c : scal F s un -> (0 <= k <= mw F)%Z -> AP F s x r b -> btrc F un k b = c -> AP F s (trc k x) r c.
Proof.
  intros (S & U & HB) K H <-. pose proof (AP_ev _ _ _ _ _ (proj1 S) H) as EV. destruct b as [[l h] e]. destruct H as ((B & Fx) & H1 & H2). cbn [btrc mg ber] in *.
  destruct (trunc_ok F k x B Fx K) as (Bt & Ft & D & _). split; [split; assumption|]. split; [exact H1|].
  replace (val F (trc k x) - s * r) with ((val F (trc k x) - val F x) + (val F x - s * r)) by ring. eapply Rle_trans; [apply Rabs_triang|].
  rewrite !fxr_add, <- fxr_add in *. set (M := (Z.max (Z.abs l) (Z.abs h) + e)%Z) in *.
  pose proof (fxr_shr M (mw F - k) ltac:(lia)) as Q. replace (- (mw F - k))%Z with (k - mw F)%Z in Q by ring. pose proof (bpow_gt_0 radix2 (k - mw F)) as G.
  assert (T1 : bpow radix2 (k - mw F) * Rabs (val F x) <= s * fxr (cdiv M (2 ^ (mw F - k)))).
  { eapply Rle_trans; [apply Rmult_le_compat_l; [lra|exact EV]|]. replace (bpow radix2 (k - mw F) * (s * fxr M)) with (s * (fxr M * bpow radix2 (k - mw F))) by ring. apply Rmult_le_compat_l; lra. }
  assert (T2 : bpow radix2 (k + emin F) <= s * fxr (un * 2 ^ (k + 1))).
  { replace (k + emin F)%Z with ((k + 1) + (emin F - 1))%Z by ring. rewrite bpow_plus. unfold fxr. rewrite mult_IZR, IZR_pow2 by lia. pose proof (bpow_gt_0 radix2 (k + 1)). unfold fxr in HB.
    replace (s * (IZR un * bpow radix2 (k + 1) / IZR SC)) with (bpow radix2 (k + 1) * (s * (IZR un / IZR SC))) by (unfold Rdiv; ring). apply Rmult_le_compat_l; lra. }
  rewrite !fxr_add. lra.
Qed.
(** another way to write the real, with its own range *)
Lemma AP_is F s x r r' l h e l' h' : AP F s x r (l, h, e) -> r' = r -> fxr l' <= r' <= fxr h' -> AP F s x r' (l', h', e).
Proof. intros (A & _ & C) -> R. split; [exact A|]. split; [exact R|exact C]. Qed.
Lemma AP_zero F s x r l h e : AP F s x r (l, h, e) -> r = 0 -> AP F s x 0 (0, 0, e)%Z.
Proof. intros A E. apply (AP_is F s x r 0 l h e 0 0 A); [now symmetry|rewrite fxr_0; lra]. Qed.
(** from a factor [s] to the factor 1 *)
Definition bun (S : Z) (b : bnd) : bnd := let m := cdiv (S * mg b) SC in (- m, m, cdiv (S * ber b) SC)%Z.
Lemma AP_un F s S x r b c : 0 < s -> s <= fxr S -> AP F s x r b -> (0 <= ber b)%Z -> bun S b = c -> AP F 1 x (s * r) c.
Proof.
  intros P L H E <-. pose proof (AP_mag _ _ _ _ _ H) as M. destruct b as [[l h] e]. destruct H as (A & _ & H2). unfold bun. change (ber (l, h, e)) with e in *. set (m := mg (l, h, e)) in *.
  pose proof (fxr_mul_up S m) as Q. pose proof (fxr_mul_up S e) as Q2. assert (0 <= fxr m) by (eapply Rle_trans; [apply Rabs_pos|exact M]). assert (0 <= fxr e) by now apply fxr_pos.
  split; [exact A|]. rewrite fxr_opp. split.
  - apply Rabs_le_inv. rewrite Rabs_mult, (Rabs_pos_eq s) by lra. apply Rle_trans with (fxr S * fxr m); [|exact Q]. apply Rmult_le_compat; try assumption; [lra|apply Rabs_pos].
  - rewrite !Rmult_1_l. apply Rle_trans with (s * fxr e); [exact H2|]. apply Rle_trans with (fxr S * fxr e); [nra|exact Q2].
Qed.
(** ** Reciprocals *)
Lemma fxr_inv_up l : (0 < l)%Z -> / fxr l <= fxr (cdiv (SC * SC) l).
Proof.
  intros L. assert (0 < IZR l) by (apply (IZR_lt 0); lia). pose proof SC_pos. pose proof (cdiv_ge (SC * SC) l L) as Q. rewrite mult_IZR in Q. unfold fxr.
  replace (/ (IZR l / IZR SC)) with ((IZR SC * IZR SC / IZR l) / IZR SC) by (field; lra). apply Rmult_le_compat_r; [left; now apply Rinv_0_lt_compat|exact Q].
Qed.
Lemma fxr_inv_dn l : (0 < l)%Z -> fxr (SC * SC / l) <= / fxr l.
Proof.
  intros L. assert (0 < IZR l) by (apply (IZR_lt 0); lia). pose proof SC_pos. pose proof (fdiv_le (SC * SC) l L) as Q. rewrite fdv_eq, mult_IZR in Q. unfold fxr.
  replace (/ (IZR l / IZR SC)) with ((IZR SC * IZR SC / IZR l) / IZR SC) by (field; lra). apply Rmult_le_compat_r; [left; now apply Rinv_0_lt_compat|exact Q].
Qed.
Definition binv (F : fmt) (un : Z) (b : bnd) : bnd := let '(l, h, e) := b in
  let l' := (SC * SC / h)%Z in let h' := cdiv (SC * SC) l in let e' := cdiv (cdiv (SC * SC) l * cdiv (e * cdiv (SC * SC) (l - e)) SC) SC in
  (l', h', e' + cdiv (Z.max (Z.abs l') (Z.abs h') + e') (2 ^ pr F) + un)%Z.
Lemma AP_inv F (HF : (8 <= ew F)%Z) un one x r b c : scal F 1 un -> finite F one = true -> val F one = 1 -> AP F 1 x r b ->
  (let '(l, h, e) := b in (0 <? l) && (l <=? h) && (0 <=? e) && (e <? l) && (let '(l', h', e') := binv F un b in Z.max (Z.abs l') (Z.abs h') + e' <=? cap))%Z = true -> binv F un b = c -> AP F 1 (fdiv F one x) (/ r) c.
Proof.
  intros HS F1 V1 H C <-. destruct b as [[l h] e]. unfold binv in *. rewrite !andb_true_iff, !Z.ltb_lt, !Z.leb_le in C. destruct C as ((((C1 & C2) & C3) & C4) & C5).
  destruct H as ((B & Fx) & H1 & H2). rewrite !Rmult_1_l in H2. set (w := val F x) in *.
  assert (FL : 0 < fxr l) by (rewrite <- fxr_0; unfold fxr; apply Rmult_lt_compat_r; [apply Rinv_0_lt_compat, SC_pos|apply IZR_lt; lia]).
  assert (FD : 0 < fxr (l - e)) by (rewrite <- fxr_0; unfold fxr; apply Rmult_lt_compat_r; [apply Rinv_0_lt_compat, SC_pos|apply IZR_lt; lia]).
  assert (FE : 0 <= fxr e) by now apply fxr_pos.
  assert (W : fxr (l - e) <= w) by (rewrite fxr_sub; apply Rabs_le_inv in H2; lra).
  pose proof (fxr_inv_up l C1) as IU. pose proof (fxr_inv_up (l - e) ltac:(lia)) as IU2. pose proof (fxr_inv_dn h ltac:(lia)) as ID.
  assert (R1 : fxr (SC * SC / h) <= / r <= fxr (cdiv (SC * SC) l)).
  { split; [apply Rle_trans with (/ fxr h); [exact ID|apply Rinv_le; lra]|apply Rle_trans with (/ fxr l); [apply Rinv_le; lra|exact IU]]. }
  assert (ER : Rabs (val F one / w - 1 * / r) <= 1 * fxr (cdiv (cdiv (SC * SC) l * cdiv (e * cdiv (SC * SC) (l - e)) SC) SC)).
  { rewrite V1, !Rmult_1_l. replace (1 / w - / r) with (- (w - r) * / w * / r) by (field; lra). rewrite !Rabs_mult, Rabs_Ropp, (Rabs_pos_eq (/ w)), (Rabs_pos_eq (/ r)) by (left; apply Rinv_0_lt_compat; lra).
    assert (0 < / w) by (apply Rinv_0_lt_compat; lra). assert (0 < / r) by (apply Rinv_0_lt_compat; lra). assert (/ w <= fxr (cdiv (SC * SC) (l - e))) by (apply Rle_trans with (/ fxr (l - e)); [apply Rinv_le; lra|exact IU2]).
    pose proof (fxr_mul_up e (cdiv (SC * SC) (l - e))) as Q1. pose proof (fxr_mul_up (cdiv (SC * SC) l) (cdiv (e * cdiv (SC * SC) (l - e)) SC)) as Q2.
    eapply Rle_trans; [|exact Q2]. rewrite (Rmult_comm (fxr _)). apply Rmult_le_compat; try lra; [apply Rmult_le_pos; [apply Rabs_pos|lra]|].
    eapply Rle_trans; [|exact Q1]. apply Rmult_le_compat; try lra; apply Rabs_pos. }
  apply (sum_step F HF 1 un HS _ _ _ _ _ _ _ (fdiv_spec F one x F1 Fx ltac:(fold w; lra)) R1 ER).
  set (M := Z.max (Z.abs (SC * SC / h)) (Z.abs (cdiv (SC * SC) l))) in *. set (e' := cdiv (cdiv (SC * SC) l * cdiv (e * cdiv (SC * SC) (l - e)) SC) SC) in *.
  assert (0 <= cdiv (M + e') (2 ^ pr F))%Z; [|destruct HS as (_ & U & _); lia].
  assert (0 <= e')%Z. { pose proof (Rabs_pos (val F one / w - 1 * / r)). apply le_IZR. assert (G : 0 <= fxr e') by lra. unfold fxr in G. pose proof SC_pos. apply Rmult_le_reg_r with (/ IZR SC); [apply Rinv_0_lt_compat; lra|]. rewrite Rmult_0_l. exact G. }
  unfold cdiv. rewrite fdv_eq. assert (0 < 2 ^ pr F)%Z by (apply Z.pow_pos_nonneg; [lia|unfold pr; pose proof (fmt_facts F); lia]). assert (- (M + e') / 2 ^ pr F <= 0)%Z; [|lia]. apply Z.div_le_upper_bound; lia.
Qed.
