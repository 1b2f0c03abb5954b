(** rem_pio2_large: the recomputation loop stops and stays inside its arrays (C38). *)
From Coq Require Import ZArith Reals Lia Lra Bool List Psatz.
From Flocq Require Import Core.
From Verif Require Import Base Spec SpecFun Format Ieee M_basic M_scalbn M_elib M_rempio2 P_ieee P_elem2 P_ival P_cf P_fx P_rpl P_rpl2.
Import ListNotations.
Open Scope Z_scope.
Open Scope fl_scope.

Section Rpl.
Variable b : bool.
Variables jx jv jk q0 : Z.
Variable x : list Z.
Variable X : Z -> Z.
Hypothesis Hjx : 0 <= jx <= 2.
Hypothesis Hjv : 0 <= jv <= 41.
Hypothesis Hjk : 3 <= jk <= 4.
Hypothesis Hq0 : -27 <= q0 <= 2.
Hypothesis Hq0v : 0 < jv -> -21 <= q0.
Hypothesis Hlen : Z.of_nat (length x) = jx + 1.
Hypothesis HxX : forall j, 0 <= j <= jx -> fx (nz x j) (X j) 0.
Hypothesis HX : forall j, 0 <= X j < 2 ^ 24.
Hypothesis HXo : forall j, jx < j -> X j = 0.
Notation d := (digit (IPIO2 b)).
Notation qv := (qv b jv X).
Notation Sn := (Sn b jv X).
Notation okf := (okf b jx jv).
Notation okq := (okq b jv X).
Definition Xt : Z := X 0 * 2 ^ 48 + X 1 * 2 ^ 24 + X 2.
Hypothesis Hgap : forall N, 2 ^ 80 <= Z.abs (Xt * win (IPIO2 b) jv (Z.to_nat jk) - N * 2 ^ (24 * (2 + jk) - q0)).

Definition Hi : Z := X 0 * d (jv - 1) + X 1 * d (jv - 2) + 2 ^ 24 * (X 0 * d (jv - 2)).
Definition Lo (n : Z) : Z := 2 ^ 24 * (X 1 * d (jv + n) + X 2 * d (jv + n - 1)) + X 2 * d (jv + n).
Lemma Sn_win n : Xt * win (IPIO2 b) jv n = 2 ^ 48 * Sn (S n) + 2 ^ (24 * (Z.of_nat n + 3)) * Hi + Lo (Z.of_nat n).
Proof.
  induction n as [|n IH].
  - cbn [win P_rpl.Sn]. unfold Xt, Hi, Lo, P_rpl.qv. change (Z.of_nat 0) with 0. rewrite !Z.add_0_r. change (2 ^ (24 * (0 + 3))) with (2 ^ 72). ring.
  - cbn [win]. rewrite Z.mul_add_distr_l, Z.mul_assoc, IH.
    change (Sn (S (S n))) with (Sn (S n) * 2 ^ 24 + qv (Z.of_nat (S n))). generalize (Sn (S n)). intros s.
    replace (24 * (Z.of_nat (S n) + 3)) with (24 * (Z.of_nat n + 3) + 24) by lia. rewrite Z.pow_add_r by lia.
    generalize (2 ^ (24 * (Z.of_nat n + 3))) Hi. intros P h. unfold Xt, Lo, P_rpl.qv.
    replace (jv + Z.of_nat (S n) - 1) with (jv + Z.of_nat n) by lia.
    replace (jv + Z.of_nat (S n) - 2) with (jv + Z.of_nat n - 1) by lia. ring.
Qed.
Lemma Xt_range : 0 <= Xt < 2 ^ 72.
Proof. unfold Xt. pose proof (HX 0). pose proof (HX 1). pose proof (HX 2). lia. Qed.
Lemma Lo_range n : 0 <= Lo n < 2 ^ 74.
Proof. unfold Lo. pose proof (prod_range b x X HX 1 (jv + n)). pose proof (prod_range b x X HX 2 (jv + n - 1)). pose proof (prod_range b x X HX 2 (jv + n)). lia. Qed.
Lemma Hi_mult n : 0 <= n -> exists N1, 2 ^ (24 * (n + 3)) * Hi = N1 * 2 ^ (24 * (n + 2) - q0).
Proof.
  intros Hn. destruct (Z.eq_dec jv 0) as [J|J].
  - exists 0. unfold Hi. rewrite J. rewrite !digit_neg by lia. ring.
  - exists (Hi * 2 ^ (24 + q0)). replace (24 * (n + 3)) with (24 + q0 + (24 * (n + 2) - q0)) by lia. rewrite Z.pow_add_r by lia. ring.
Qed.
Lemma win_low m : exists low, win (IPIO2 b) jv (Z.to_nat jk + m) = win (IPIO2 b) jv (Z.to_nat jk) * 2 ^ (24 * Z.of_nat m) + low /\ 0 <= low < 2 ^ (24 * Z.of_nat m).
Proof.
  induction m as [|m (low & E & R)].
  - exists 0. rewrite Nat.add_0_r. change (24 * Z.of_nat 0) with 0. change (2 ^ 0) with 1. lia.
  - exists (low * 2 ^ 24 + d (jv + Z.of_nat (S (Z.to_nat jk + m)))). rewrite Nat.add_succ_r. cbn [win]. rewrite E, pow24.
    pose proof (digit_range b (jv + Z.of_nat (S (Z.to_nat jk + m)))). split; [ring|]. nia.
Qed.
(** A small remainder is impossible: the number is not near a multiple of pi/2. *)
Lemma gapQ n N s Q : jk <= n -> s = 1 \/ s = -1 -> 0 <= Q -> Sn (Z.to_nat (n + 1)) = N * 2 ^ (24 * n - q0) + s * Q -> 2 ^ (24 * (n - jk) + 31) <= Q.
Proof.
  intros Hn Hs HQ HS. destruct (win_low (Z.to_nat (n - jk))) as (low & E & R).
  replace (Z.to_nat jk + Z.to_nat (n - jk))%nat with (Z.to_nat n) in E by lia. rewrite Z2Nat.id in E, R by lia.
  pose proof (Sn_win (Z.to_nat n)) as W. replace (S (Z.to_nat n)) with (Z.to_nat (n + 1)) in W by lia. rewrite Z2Nat.id in W by lia.
  destruct (Hi_mult n ltac:(lia)) as (N1 & EN). rewrite EN, HS, E in W. clear EN HS E.
  pose proof (Lo_range n) as RL. pose proof Xt_range as RX. specialize (Hgap (N + N1)).
  assert (EB : 2 ^ (24 * (n + 2) - q0) = 2 ^ 48 * 2 ^ (24 * n - q0)) by (rewrite <- Z.pow_add_r by lia; f_equal; lia).
  assert (EA : 2 ^ (24 * (n + 2) - q0) = 2 ^ (24 * (n - jk)) * 2 ^ (24 * (2 + jk) - q0)) by (rewrite <- Z.pow_add_r by lia; f_equal; lia).
  rewrite Z.pow_add_r by lia.
  assert (PA : 1 <= 2 ^ (24 * (n - jk))) by (assert (0 < 2 ^ (24 * (n - jk))) by (apply Z.pow_pos_nonneg; lia); lia).
  set (A := 2 ^ (24 * (n - jk))) in *. set (w := win (IPIO2 b) jv (Z.to_nat jk)) in *. set (B' := 2 ^ (24 * (2 + jk) - q0)) in *.
  assert (EQ : A * (Xt * w - (N + N1) * B') = 2 ^ 48 * (s * Q) + Lo n - Xt * low).
  { rewrite EB in W, EA. transitivity (Xt * (w * A + low) - Xt * low - (N + N1) * (A * B')); [ring|]. rewrite W, <- EA. ring. }
  clearbody A w B'. clear W EA EB.
  assert (G : A * 2 ^ 80 <= Z.abs (A * (Xt * w - (N + N1) * B'))) by (rewrite Z.abs_mul, (Z.abs_eq A) by lia; apply Z.mul_le_mono_nonneg_l; lia).
  rewrite EQ in G. assert (0 <= Xt * low <= 2 ^ 72 * A) by nia.
  destruct Hs as [-> | ->]; lia.
Qed.

Lemma rpl_more_ok f q jz k : okf f (jx + jz) -> okq q jz -> 1 <= jz -> 1 <= k -> jz + k <= 10 ->
  exists f' q', rpl_more b x f q jx jv jz k = Some (f', q') /\ okf f' (jx + (jz + k)) /\ okq q' (jz + k).
Proof.
  intros Hf Hq Hz Hk Hzk. unfold rpl_more. rewrite !uadd_ok by (p31; lia). cbn [bind].
  forup (fun i (s : list Z * list Z) => okf (fst s) (jx + (i - 1)) /\ okq (snd s) (i - 1)) as (s & E & H1 & H2); [lia| | |rewrite E].
  - cbn [fst snd]. replace (jz + 1 - 1) with jz by lia. split; assumption.
  - intros i [f1 q1] Hii ((Lf & Ff) & (Lq & Fq)). cbn [fst snd] in *.
    rewrite uadd_ok by (p31; lia). cbn [bind]. rewrite tab_get by lia. cbn [bind]. rewrite uadd_ok by (p31; lia). cbn [bind].
    destruct (arr_set_ok f1 (jx + i) (of_int f64 (d (jv + i))) ltac:(lia)) as (f2 & -> & L2 & K2). cbn [bind].
    assert (Hf2 : okf f2 (jx + i)).
    { split; [lia|]. intros j Hj. rewrite K2 by lia. destruct (Z.eqb_spec j (jx + i)) as [->|].
      - replace (jv - jx + (jx + i)) with (jv + i) by lia. apply fx_int. pose proof (digit_range b (jv + i)). lia.
      - apply Ff; lia. }
    destruct (rpl_dot_ok b jx jv x X Hjx Hlen HxX HX HXo f2 i) as (w & -> & Hw); [lia|lia|exact Hf2|]. cbn [bind].
    destruct (arr_set_ok q1 i w ltac:(lia)) as (q2 & -> & M2 & J2). cbn [bind]. eexists; split; [reflexivity|]. cbn [fst snd].
    replace (i + 1 - 1) with i by lia. split; [exact Hf2|]. split; [lia|]. intros j Hj. rewrite J2 by lia.
    destruct (Z.eqb_spec j i) as [->|]; [exact Hw|]. apply Fq; lia.
  - destruct s as [f' q']. cbn [fst snd] in *. replace (jz + k + 1 - 1) with (jz + k) in * by lia. exists f', q'. auto.
Qed.

Lemma rpl_or_ok l jz : dig l jz -> jk <= jz <= 18 -> exists j, rpl_or l jk jz = Some j /\ (if j =? 0 then forall i, jk <= i < jz -> nz l i = 0 else exists i, jk <= i < jz /\ nz l i <> 0).
Proof.
  intros (L & Hd) Hz. unfold rpl_or. rewrite usub_ok by lia. cbn [bind].
  fordn (fun i j => if j =? 0 then forall k, i < k < jz -> nz l k = 0 else exists k, jk <= k < jz /\ nz l k <> 0) as (j & E & H); [lia| | |rewrite E].
  - cbn. intros; lia.
  - intros i j Hij Hi. rewrite arr_get_ok by lia. cbn [bind]. eexists; split; [reflexivity|].
    destruct (Z.eqb_spec (Z.lor j (nz l i)) 0) as [Z0|Z0].
    + apply Z.lor_eq_0_iff in Z0. destruct Z0 as (-> & Z0). change (0 =? 0) with true in Hi. cbv iota in Hi.
      intros k Hk. destruct (Z.eq_dec k i) as [->|]; [exact Z0|]. apply Hi; lia.
    + destruct (Z.eqb_spec j 0) as [->|]; [|exact Hi]. rewrite Z.lor_0_l in Z0. exists i. split; [lia|exact Z0].
  - exists j. split; [reflexivity|]. destruct (j =? 0); [|exact H]. intros k Hk. apply H; lia.
Qed.
Lemma rpl_k_ok l i0 : Z.of_nat (length l) = 20 -> 0 <= i0 < jk -> nz l i0 <> 0 -> exists k, rpl_k l jk = Some k /\ 1 <= k <= jk.
Proof.
  intros L Hi0 Hn. unfold rpl_k.
  destruct (run_rule (fun k => 1 <= k /\ i0 <= jk - k) (fun k => jk - k) (fun k => 1 <= k <= jk)
    (fun k => let* i := usub 64 jk k in let* a := arr_get l i in if a =? 0 then let* k0 := uadd 64 k 1 in Some (Cont k0) else Some (Ret k))) with (p := 25%positive) (s := 1) as (k & E & H); [|lia|lia|].
  - intros k Hk. rewrite usub_ok by lia. cbn [bind]. rewrite arr_get_ok by lia. cbn [bind]. destruct (Z.eqb_spec (nz l (jk - k)) 0) as [Z0|Z0].
    + rewrite uadd_ok by (p31; lia). cbn [bind]. eexists; split; [reflexivity|]. cbv beta iota.
      assert (i0 <> jk - k) by (intros ->; contradiction). lia.
    + eexists; split; [reflexivity|]. cbv beta iota. lia.
  - exists k. split; [exact E|exact H].
Qed.
(** What the recomputation loop delivers. *)
Definition rpl_post (r : Z * Z * Z * list Z * list Z * Z) : Prop :=
  let '(n, ih, z, iq, q, jz) := r in
  exists Zi N, 0 <= n <= 8 /\ fx z Zi (Z.min q0 0) /\ (0 <= Zi <= 2 ^ (- Z.min q0 0) /\ (0 <= q0 -> Zi = 0)) /\ dig iq jz /\ Z.of_nat (length q) = 20 /\ jk <= jz <= 10 /\
    (let Q := Zi * 2 ^ (24 * jz) + Iv iq (Z.to_nat jz) in
     2 ^ (24 * (jz - jk) + 31) <= Q /\ 2 * Q <= 2 ^ (24 * jz - q0) /\
     Sn (Z.to_nat (jz + 1)) = N * 2 ^ (24 * jz - q0) + (if 0 <? ih then - Q else Q)) /\ n mod 8 = N mod 8 /\
    (ih = 0 \/ ih = 1 \/ ih = 2) /\
    (Zi <> 0 \/ exists i, jk <= i < jz /\ nz iq i <> 0).
Definition rpl_inv (s : list Z * list Z * list Z * Z) : Prop :=
  let '(f, q, iq, jz) := s in okf f (jx + jz) /\ okq q jz /\ Z.of_nat (length iq) = 20 /\ jk <= jz <= 10.

Lemma rpl_step_ok s : rpl_inv s -> exists c, rpl_step b x jx jv jk q0 s = Some c /\
  match c with Cont s' => rpl_inv s' /\ 0 <= 10 - snd s' < 10 - snd s | Ret r => rpl_post r end.
Proof.
  destruct s as [[[f q] iq] jz]. intros (Hf & Hq & Li & Hz). unfold rpl_step.
  destruct (rpl_distill_ok b jv x X HX q iq jz Hq Li ltac:(lia)) as (z & iq1 & z0 & -> & A1 & A2 & A3 & A4). cbn [bind].
  destruct (rpl_n_ok z z0 q0 jz iq1 A1 A2 Hq0 ltac:(lia) A3) as (n & ih & z1 & iq2 & Zi & N & -> & B1 & B2 & B3 & B4 & B5 & B6 & B7 & B8 & B9). cbn [bind].
  assert (Bn : 0 <= n <= 7) by (rewrite B6; pose proof (Z.mod_pos_bound N 8 ltac:(lia)); lia).
  assert (PB : 0 < 2 ^ (24 * jz - q0)) by (apply Z.pow_pos_nonneg; lia).
  destruct (rpl_flip_ok n ih z1 Zi q0 jz iq2 Bn Hq0 ltac:(lia) B1 B2 B3 B5 B8 B9) as (z2 & iq3 & Zi' & -> & C1 & C2 & C3 & C4).
  { intros I. apply Z.ltb_lt in I. rewrite I in B7. lia. }
  cbn [bind].
  set (Q := Zi' * 2 ^ (24 * jz) + Iv iq3 (Z.to_nat jz)) in *.
  set (N' := if 0 <? ih then N + 1 else N).
  assert (HS : Sn (Z.to_nat (jz + 1)) = N' * 2 ^ (24 * jz - q0) + (if 0 <? ih then - Q else Q)).
  { rewrite A4, B4, C4. unfold N'. destruct (0 <? ih); ring. }
  assert (HQ0 : 0 <= Q) by (rewrite C4; destruct (0 <? ih); lia).
  assert (HQ1 : 2 * Q <= 2 ^ (24 * jz - q0)) by (rewrite C4; destruct (0 <? ih); lia).
  assert (HQ2 : 2 ^ (24 * (jz - jk) + 31) <= Q).
  { apply (gapQ jz N' (if 0 <? ih then -1 else 1)); [lia|destruct (0 <? ih); auto|exact HQ0|]. rewrite HS. destruct (0 <? ih); ring. }
  assert (Hn8 : (if 0 <? ih then n + 1 else n) mod 8 = N' mod 8).
  { unfold N'. rewrite B6. destruct (0 <? ih); [rewrite Zplus_mod_idemp_l; reflexivity|apply Z.mod_mod; lia]. }
  assert (Hnr : 0 <= (if 0 <? ih then n + 1 else n) <= 8) by (destruct (0 <? ih); lia).
  assert (Post : (Zi' <> 0 \/ exists i, jk <= i < jz /\ nz iq3 i <> 0) -> rpl_post (if 0 <? ih then n + 1 else n, ih, z2, iq3, q, jz)).
  { intros P. exists Zi', N'. fold Q. split; [exact Hnr|]. split; [exact C1|]. split; [exact C2|]. split; [exact C3|]. split; [apply Hq|]. split; [exact Hz|].
    split; [split; [exact HQ2|split; [exact HQ1|exact HS]]|]. split; [exact Hn8|]. split; [|exact P]. destruct (Z_lt_le_dec q0 0); lia. }
  rewrite (fx_eq0 _ _ _ C1). destruct (Z.eqb_spec Zi' 0) as [Z0|Z0]; [|eexists; split; [reflexivity|]; apply Post; left; exact Z0].
  destruct (rpl_or_ok iq3 jz C3 ltac:(lia)) as (j & -> & Hj). cbn [bind]. destruct (Z.eqb_spec j 0) as [J0|J0]; [|eexists; split; [reflexivity|]; apply Post; right; exact Hj].
  assert (EQ : Q = Iv iq3 (Z.to_nat jk)) by (unfold Q; rewrite Z0, Z.mul_0_l, Z.add_0_l; apply Iv_zeros; [lia|exact Hj]).
  assert (RQ := dig_Iv iq3 jz jk C3 ltac:(lia)). rewrite <- EQ in RQ.
  assert (Hjz : jz - jk <= 2).
  { assert (24 * (jz - jk) + 31 < 24 * jk); [|lia]. apply (Z.pow_lt_mono_r_iff 2); lia. }
  assert (0 < 2 ^ (24 * (jz - jk) + 31)) by (apply Z.pow_pos_nonneg; lia).
  destruct (Iv_nonzero iq3 (Z.to_nat jk) ltac:(lia)) as (i0 & Hi0 & Ni0). rewrite Z2Nat.id in Hi0 by lia.
  destruct (rpl_k_ok iq3 i0 (proj1 C3) Hi0 Ni0) as (k & -> & Hk). cbn [bind].
  destruct (rpl_more_ok f q jz k Hf Hq ltac:(lia) ltac:(lia) ltac:(lia)) as (f' & q' & -> & M1 & M2). cbn [bind].
  rewrite uadd_ok by (p31; lia). cbn [bind]. eexists; split; [reflexivity|]. cbv iota. unfold rpl_inv. cbn [snd].
  split; [|lia]. split; [exact M1|]. split; [exact M2|]. split; [exact (proj1 C3)|lia].
Qed.

Lemma rpl_loop_ok f q : okf f (jx + jk) -> okq q jk -> exists r, run 25 (rpl_step b x jx jv jk q0) (f, q, repeat 0 20, jk) = Some r /\ rpl_post r.
Proof.
  intros Hf Hq. apply (run_rule rpl_inv (fun s => 10 - snd s) rpl_post).
  - apply rpl_step_ok.
  - split; [exact Hf|]. split; [exact Hq|]. split; [rewrite repeat_length; reflexivity|lia].
  - cbn [snd]. lia.
Qed.
End Rpl.
