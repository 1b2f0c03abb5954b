(** The hexadecimal float parser: [parse_finite] as one rounding. *)
From Coq Require Import ZArith Reals Lia Lra Bool List.
From Flocq Require Import Core.
From Verif Require Import Base Spec SpecHex Format P_format P_ieee P_real P_near M_hex P_hex P_hex2.
Import ListNotations.
Open Scope Z_scope.

(** [sig * 2^exp] as returned by [parse_hex] stands for the real [t * 2^exp] *)
Definition stands (sig exp : Z) (t : R) : Prop :=
  (near 1 sig t /\ (t = IZR sig \/ 2 ^ 124 <= sig)) \/ (exp = - 2 ^ 31 /\ (0 < t < bpow radix2 128)%R).

Lemma lt_pow2_bpow a k : 0 <= k -> a < 2 ^ k -> (IZR a < bpow radix2 k)%R.
Proof. intros K H. rewrite <- IZR_pow2 by lia. now apply IZR_lt. Qed.
Lemma near_cell sig t T : near 1 sig t -> (t = IZR sig \/ 2 ^ 124 <= sig) -> 0 < sig -> 2 ^ T <= sig < 2 ^ (T + 1) -> 0 <= T ->
  (bpow radix2 T <= t < bpow radix2 (T + 1))%R.
Proof.
  intros N D S B HT. destruct D as [-> |D].
  - rewrite <- !IZR_pow2 by lia. split; [apply IZR_le; lia|apply IZR_lt; lia].
  - assert (T1 : 1 <= T).
    { destruct (Z.le_gt_cases 1 T) as [H|H]; [exact H|]. exfalso. replace T with 0 in B by lia. change (2 ^ (0 + 1)) with 2 in B. lia. }
    assert (M1 : exists c, 2 ^ T = c * 2 ^ 1) by (exists (2 ^ (T - 1)); rewrite <- pow2_split by lia; f_equal; lia).
    assert (M2 : exists c, 2 ^ (T + 1) = c * 2 ^ 1) by (exists (2 ^ T); rewrite <- pow2_split by lia; f_equal; lia).
    destruct (near_le_iff 1 sig t _ M1 N ltac:(lia)) as (L1 & _).
    destruct (near_le_iff 1 sig t _ M2 N ltac:(lia)) as (_ & L2 & _).
    rewrite <- !IZR_pow2 by lia. split; [apply L1; lia|apply L2; lia].
Qed.

Lemma gf_le r x n : (0 <= x <= IZR n)%R -> 0 <= gf r x <= n.
Proof.
  intros [H1 H2]. assert (V : forall f, Valid_rnd f -> 0 <= f x <= n).
  { intros f [V1 V2]. split; [rewrite <- (V2 0)|rewrite <- (V2 n)]; now apply V1. }
  destruct r; [exact (V _ (valid_rnd_N _))|exact (V _ valid_rnd_DN)|exact (V _ valid_rnd_UP)|exact (V _ valid_rnd_DN)].
Qed.
Lemma gf_ge r x n : (IZR n <= x)%R -> n <= gf r x.
Proof.
  intros H1. assert (V : forall f, Valid_rnd f -> n <= f x).
  { intros f [V1 V2]. rewrite <- (V2 n). now apply V1. }
  destruct r; [exact (V _ (valid_rnd_N _))|exact (V _ valid_rnd_DN)|exact (V _ valid_rnd_UP)|exact (V _ valid_rnd_DN)].
Qed.
Lemma gf_IZR r n : gf r (IZR n) = n.
Proof.
  assert (V : forall f, Valid_rnd f -> f (IZR n) = n) by (intros f [V1 V2]; apply V2).
  destruct r; [exact (V _ (valid_rnd_N _))|exact (V _ valid_rnd_DN)|exact (V _ valid_rnd_UP)|exact (V _ valid_rnd_DN)].
Qed.

(** what remains after rounding: place the exponent, check the range (lines 151-184) *)
Definition place (p e n st U : Z) (r : Round) : Z * Z :=
  let y := n + (U * 2 ^ p) mod 2 ^ 128 in
  let inf := (2 ^ e - 1) * 2 ^ p in
  if (y <? 2 ^ 128) && (y <? inf) then (y, if negb (st =? 0) && (y <? 2 ^ p) then 48 else st)
  else (match r with Positive | Nearest => inf | _ => inf - 1 end, 40).

Section Core.
Variables (b : list Z) (p e : Z) (r : Round) (sig exp : Z) (t : R).
Hypothesis Hp : 1 <= p <= 119.
Hypothesis He : 2 <= e <= 29.
Hypothesis Hpe : p + e + 1 <= 128.
Hypothesis Hb : parse_hex b = Some (Ok (sig, exp)).
Hypothesis Hs : 0 < sig < 2 ^ 128.
Hypothesis Hx : - 2 ^ 31 <= exp < 2 ^ 31.
Hypothesis Hst : stands sig exp t.
Let M := 2 ^ (e - 1) - 1.
Let m := 1 - M - p.
Let T := Z.log2 sig.
Let rb := Z.max (T - p) (m - exp).
Let U := exp + rb - m.
Hypothesis HU : exp + rb < 2 ^ 31 /\ U < 2 ^ 31.
Let n := gf r (t * bpow radix2 (- rb)).
Let ix := negb (Req_bool (IZR n) (t * bpow radix2 (- rb))).

Lemma T_spec : 2 ^ T <= sig < 2 ^ (T + 1) /\ 0 <= T < 128.
Proof.
  pose proof (Z.log2_spec sig ltac:(lia)) as L. rewrite <- Z.add_1_r in L. fold T in L. split; [exact L|].
  split; [apply Z.log2_nonneg|]. apply Z.log2_lt_pow2; lia.
Qed.
Lemma M_spec : 1 <= M <= 2 ^ 28 - 1.
Proof.
  unfold M. assert (2 ^ 1 <= 2 ^ (e - 1)) by (apply Z.pow_le_mono_r; lia).
  assert (2 ^ (e - 1) <= 2 ^ 28) by (apply Z.pow_le_mono_r; lia). change (2 ^ 1) with 2 in *. lia.
Qed.
Lemma t_bound : (0 < t < bpow radix2 (p + 1 + rb))%R.
Proof.
  destruct T_spec as [T1 T2]. pose proof M_spec as Ms.
  destruct Hst as [[N D]|[E D]].
  - pose proof (near_cell sig t T N D ltac:(lia) T1 ltac:(lia)) as [C1 C2]. pose proof (bpow_gt_0 radix2 T).
    split; [lra|]. eapply Rlt_le_trans; [exact C2|]. apply bpow_le. unfold rb. lia.
  - split; [lra|]. eapply Rlt_le_trans; [exact (proj2 D)|]. apply bpow_le. unfold rb, m. lia.
Qed.
Lemma n_bound : 0 <= n <= 2 ^ (p + 1) /\ (0 < U -> 2 ^ p <= n).
Proof.
  pose proof t_bound as [B1 B2]. pose proof (bpow_gt_0 radix2 (- rb)) as P. destruct T_spec as [T1 T2]. pose proof M_spec as Ms.
  split.
  - apply gf_le. split; [apply Rmult_le_pos; lra|]. rewrite IZR_pow2 by lia.
    replace (p + 1) with (p + 1 + rb + - rb) by lia. rewrite (bpow_plus radix2 (p + 1 + rb)). apply Rmult_le_compat_r; lra.
  - intros HU0. apply gf_ge. rewrite IZR_pow2 by lia. assert (R : rb = T - p) by (unfold U, rb in *; lia).
    destruct Hst as [[N D]|[E D]]; [|unfold U, rb, m in *; lia].
    pose proof (near_cell sig t T N D ltac:(lia) T1 ltac:(lia)) as [C1 C2].
    replace p with (T + - rb) by lia. rewrite bpow_plus. apply Rmult_le_compat_r; lra.
Qed.

Lemma Req_bool_refl x : Req_bool x x = true.
Proof. apply Req_bool_true. reflexivity. Qed.

Lemma finite_core : parse_finite b (p + e + 1) p r = Some (Ok (place p e n (if ix then 32 else 0) U r)).
Proof.
  destruct T_spec as [T1 T2]. pose proof M_spec as Ms. pose proof n_bound as [NB _].
  assert (P31 : 2 ^ (32 - 1) = 2147483648) by reflexivity. assert (E31 : 2 ^ 31 = 2147483648) by reflexivity.
  assert (E28 : 2 ^ 28 = 268435456) by reflexivity.
  assert (E32 : 2 ^ 32 = 4294967296) by reflexivity.
  assert (P1 : 1 <= 2 ^ p) by (pose proof (pow2_pos p ltac:(lia)); lia).
  unfold parse_finite. rewrite usub_ok by lia. cbn [bind]. rewrite usub_ok by lia. cbn [bind]. rewrite usub_ok by lia. cbn [bind].
  replace (p + e + 1 - p - 1) with e by lia.
  rewrite ushl_ok by lia. cbn [bind]. rewrite Z.mul_1_l. rewrite Z.mod_small by (unfold M in Ms; lia).
  rewrite to_i_small by (rewrite ?P31; unfold M in Ms; lia).
  unfold ssub at 1. rewrite chk_ok by (rewrite P31; unfold M in Ms; lia). cbn [bind]. fold M.
  unfold ssub at 1. rewrite chk_ok by (rewrite P31; lia). cbn [bind].
  rewrite !(to_i_small 32 p) by (rewrite ?P31; lia).
  unfold ssub at 1. rewrite chk_ok by (rewrite P31; lia). cbn [bind]. fold m.
  rewrite Hb. cbn [bind]. rewrite (proj2 (Z.eqb_neq _ _)) by lia.
  unfold u128_ilog2. rewrite (proj2 (Z.eqb_neq _ _)) by lia. rewrite usub_ok by lia. cbn [bind].
  rewrite (lzcnt_spec 128 sig T) by lia. rewrite usub_ok by lia. cbn [bind].
  replace (128 - 1 - (128 - 1 - T)) with T by lia. rewrite to_i_small by (rewrite ?P31; lia).
  unfold ssub at 1. rewrite chk_ok by (rewrite P31; lia). cbn [bind].
  assert (Mb : - 2 ^ 28 - 119 < m < 0) by (unfold m; lia).
  unfold ssub at 1. rewrite chk_ok by (rewrite P31; lia). cbn [bind].
  assert (R : (if exp <? m - (T - p) then ssub 32 m exp else Some (T - p)) = Some rb).
  { destruct (Z.ltb_spec exp (m - (T - p))) as [L|L].
    - unfold ssub. rewrite chk_ok by (rewrite P31; lia). f_equal. unfold rb. lia.
    - f_equal. unfold rb. lia. }
  rewrite R. cbn [bind]. clear R.
  assert (RB : - 119 <= rb < 2 ^ 31) by (unfold rb; lia).
  assert (U0 : 0 <= U < 2 ^ 31) by (unfold U, rb in *; lia).
  unfold sadd. rewrite chk_ok by (rewrite P31; unfold U in U0; lia). cbn [bind].
  (* rounding *)
  match goal with |- context [if 0 <? rb then ?X else ?Y] =>
    assert (R : (if 0 <? rb then X else Y) = Some (n, if ix then 32 else 0)) end.
  { destruct (Z.ltb_spec 0 rb) as [L|L].
    - match goal with |- context [bind ?o _] => change o with (reduce sig rb) end.
      assert (A : exists a, reduce sig rb = Some a /\ 0 <= a < 2 ^ 128 /\ near 1 a (t * bpow radix2 (2 - rb))).
      { destruct Hst as [[N D]|[E D]].
        - apply reduce_ok; [lia|lia|exact N|]. intros R1.
          assert (TT : T <= p + 1) by (unfold rb in R1; lia).
          assert (L2 : sig < 2 ^ 122).
          { apply Z.lt_le_trans with (2 ^ (T + 1)); [lia|]. apply Z.pow_le_mono_r; lia. }
          change (2 ^ 127) with (2 ^ 122 * 32). change (2 ^ 124) with (2 ^ 122 * 4) in D. destruct D as [D|D]; [|lia]. split; [exact D|lia].
        - assert (RR : rb = m - exp) by (unfold rb; lia).
          apply reduce_tiny; [lia|lia|]. split; [lra|]. eapply Rlt_le_trans; [exact (proj2 D)|]. apply bpow_le. lia. }
      destruct A as (a & A1 & A2 & A3). rewrite A1. cbn [bind].
      destruct (shr2_ok r a _ A2 A3) as [S1 S2]. rewrite S1. cbn [bind]. rewrite quarter in *. fold n in S2. fold n.
      f_equal. f_equal. unfold ix. destruct (Z.eqb_spec (Z.land a 3) 0) as [Z0|Z0]; cbn [negb].
      + rewrite Req_bool_true by (now apply S2). reflexivity.
      + rewrite Req_bool_false by (intros C; apply Z0; now apply S2). reflexivity.
    - assert (X : t = IZR sig).
      { destruct Hst as [[N [D|D]]|[E D]]; [exact D| |unfold rb in *; lia].
        exfalso. assert (124 <= T). { unfold T. apply Z.log2_le_pow2; lia. } unfold rb in L. lia. }
      assert (Es : n = sig * 2 ^ (- rb) /\ ix = false).
      { assert (V : (t * bpow radix2 (- rb) = IZR (sig * 2 ^ (- rb)))%R) by (rewrite X, mult_IZR, IZR_pow2 by lia; reflexivity).
        assert (E1 : n = sig * 2 ^ (- rb)) by (unfold n; rewrite V; apply gf_IZR).
        split; [exact E1|]. unfold ix. rewrite E1, V. now rewrite Req_bool_refl. }
      destruct Es as [-> ->]. destruct (Z.ltb_spec rb 0) as [L0|L0].
      + unfold sneg. rewrite chk_ok by (rewrite P31; lia). cbn [bind].
        rewrite ushl_ok by lia. cbn [bind]. rewrite Z.mod_small; [reflexivity|].
        split; [apply Z.mul_nonneg_nonneg; [lia|apply Z.pow_nonneg; lia]|].
        apply Z.lt_le_trans with (2 ^ (T + 1) * 2 ^ (- rb)); [apply Z.mul_lt_mono_pos_r; [apply pow2_pos; lia|lia]|].
        rewrite <- pow2_split by lia. apply Z.pow_le_mono_r; [lia|]. unfold rb in *. lia.
      + replace rb with 0 by lia. change (2 ^ (- 0)) with 1. now rewrite Z.mul_1_r. }
  rewrite R. cbn [bind]. clear R.
  unfold ssub. rewrite chk_ok by (rewrite P31; fold U; lia). cbn [bind]. fold U.
  rewrite to_u_small by (change (2 ^ 128) with (2 ^ 31 * 2 ^ 97); lia).
  rewrite !ushl_ok by lia. cbn [bind].
  assert (Pp : 2 ^ p * 2 <= 2 ^ 120).
  { change (2 ^ p * 2) with (2 ^ p * 2 ^ 1). rewrite <- pow2_split by lia. apply Z.pow_le_mono_r; lia. }
  assert (Q128 : 2 ^ 128 = 2 ^ 120 * 256) by reflexivity.
  rewrite (Z.mod_small (2 * 2 ^ p)) by lia.
  replace (2 ^ (p + 1)) with (2 * 2 ^ p) in NB by (rewrite <- Z.pow_succ_r by lia; reflexivity).
  rewrite (proj2 (Z.leb_le n _)) by lia. cbn [negb].
  rewrite !Z.mul_1_l.
  assert (Pe : 4 <= 2 ^ e <= 2 ^ 29) by (split; [change 4 with (2 ^ 2)|]; apply Z.pow_le_mono_r; lia).
  rewrite (Z.mod_small (2 ^ e)) by (change (2 ^ 128) with (2 ^ 29 * 2 ^ 99); lia).
  rewrite usub_ok by lia. cbn [bind]. rewrite ushl_ok by lia. cbn [bind].
  rewrite (Z.mod_small (2 ^ p)) by lia.
  assert (I128 : 0 <= (2 ^ e - 1) * 2 ^ p < 2 ^ 128).
  { split; [apply Z.mul_nonneg_nonneg; lia|]. apply Z.lt_le_trans with (2 ^ e * 2 ^ p); [apply Z.mul_lt_mono_pos_r; lia|].
    rewrite <- pow2_split by lia. apply Z.pow_le_mono_r; lia. }
  rewrite (Z.mod_small ((2 ^ e - 1) * 2 ^ p)) by exact I128.
  assert (I1 : 1 <= (2 ^ e - 1) * 2 ^ p) by (apply Z.lt_pred_le; apply Z.mul_pos_pos; lia).
  unfold place. set (y := n + (U * 2 ^ p) mod 2 ^ 128).
  assert (OV : forall s : Z, (s = 0 \/ s = 32) -> st_with (st_with s ST_OVERFLOW) ST_INEXACT = 40) by (intros s [-> | ->]; reflexivity).
  rewrite (OV (if ix then 32 else 0)) by (destruct ix; tauto).
  assert (OV2 : (let* r0 := match r with
       | Positive | Nearest => Some ((2 ^ e - 1) * 2 ^ p)
       | _ => usub 128 ((2 ^ e - 1) * 2 ^ p) 1 end in Some (Ok (r0, 40))) =
     Some (Ok (match r with Positive | Nearest => (2 ^ e - 1) * 2 ^ p | _ => (2 ^ e - 1) * 2 ^ p - 1 end, 40))).
  { destruct r; try reflexivity; rewrite usub_ok by lia; reflexivity. }
  unfold uadd. fold y. destruct (y <? 2 ^ 128); cbn [andb].
  - destruct (y <? (2 ^ e - 1) * 2 ^ p).
    + destruct ix; [|reflexivity]. cbn. now destruct (y <? 2 ^ p).
    + transitivity (let* r0 := match r with
       | Positive | Nearest => Some ((2 ^ e - 1) * 2 ^ p)
       | _ => usub 128 ((2 ^ e - 1) * 2 ^ p) 1 end in Some (Ok (r0, 40))); [|exact OV2]. now destruct r.
  - transitivity (let* r0 := match r with
       | Positive | Nearest => Some ((2 ^ e - 1) * 2 ^ p)
       | _ => usub 128 ((2 ^ e - 1) * 2 ^ p) 1 end in Some (Ok (r0, 40))); [|exact OV2]. now destruct r.
Qed.
End Core.
