(** rem_pio2_large works on exact integers: digits, carries and array bounds (C38). *)
From Coq Require Import ZArith Reals Lia Lra Bool List Psatz.
From Flocq Require Import Core.
From Verif Require Import Base Spec SpecFun Format Ieee M_basic M_scalbn M_elib M_rempio2 P_ieee P_elem2 P_ival P_cf P_fx.
Import ListNotations.
Open Scope Z_scope.
Open Scope fl_scope.

Lemma digit_range b i : 0 <= digit (IPIO2 b) i < 2 ^ 24.
Proof.
  unfold digit. destruct (Z.ltb_spec i 0); [lia|].
  assert (H0 : forallb (fun d => (0 <=? d) && (d <? 2 ^ 24)) (IPIO2 b) = true) by (destruct b; vm_compute; reflexivity).
  rewrite forallb_forall in H0. destruct (nth_in_or_default (Z.to_nat i) (IPIO2 b) 0) as [I|E]; [|rewrite E; lia].
  specialize (H0 _ I). rewrite andb_true_iff, Z.leb_le, Z.ltb_lt in H0. exact H0.
Qed.
Lemma digit_neg b i : i < 0 -> digit (IPIO2 b) i = 0.
Proof. intros H. unfold digit. destruct (Z.ltb_spec i 0); [reflexivity|lia]. Qed.
Lemma tab_len b : 66 <= Z.of_nat (length (IPIO2 b)).
Proof. destruct b; vm_compute; discriminate. Qed.
Lemma tab_get b i : 0 <= i < 66 -> arr_get (IPIO2 b) i = Some (digit (IPIO2 b) i).
Proof.
  intros H. rewrite arr_get_ok by (pose proof (tab_len b); lia). unfold digit, nz. destruct (Z.ltb_spec i 0); [lia|reflexivity].
Qed.

(** [sum of l[i] * 2^(24 i)], i < n *)
Fixpoint Iv (l : list Z) (n : nat) : Z := match n with O => 0 | S m => Iv l m + nz l (Z.of_nat m) * 2 ^ (24 * Z.of_nat m) end.
Definition dig (l : list Z) (n : Z) : Prop := Z.of_nat (length l) = 20 /\ forall i, 0 <= i < n -> 0 <= nz l i < 2 ^ 24.
Lemma Iv_ext l l' n : (forall i, 0 <= i < Z.of_nat n -> nz l i = nz l' i) -> Iv l n = Iv l' n.
Proof.
  induction n as [|n IH]; intros H; [reflexivity|]. cbn [Iv]. rewrite IH by (intros; apply H; lia). rewrite H by lia. reflexivity.
Qed.
Lemma pow24 n : 2 ^ (24 * Z.of_nat (S n)) = 2 ^ 24 * 2 ^ (24 * Z.of_nat n).
Proof. rewrite <- Z.pow_add_r by lia. f_equal. lia. Qed.
Lemma Iv_range l n : (forall i, 0 <= i < Z.of_nat n -> 0 <= nz l i < 2 ^ 24) -> 0 <= Iv l n < 2 ^ (24 * Z.of_nat n).
Proof.
  induction n as [|n IH]; intros H; [cbn; lia|]. rewrite pow24. cbn [Iv].
  specialize (IH ltac:(intros; apply H; lia)). specialize (H (Z.of_nat n) ltac:(lia)).
  assert (0 < 2 ^ (24 * Z.of_nat n)) by (apply Z.pow_pos_nonneg; lia). nia.
Qed.

Section Rpl.
Variable b : bool.
Variables jx jv jk q0 : Z.
Variable x : list Z.
Variable X : Z -> Z.
Hypothesis Hjx : 0 <= jx <= 2.
Hypothesis Hjv : 0 <= jv <= 41.
Hypothesis Hjk : 3 <= jk <= 4.
Hypothesis Hq0 : -27 <= q0 <= 2.
Hypothesis Hq0v : 0 < jv -> -21 <= q0.
Hypothesis Hlen : Z.of_nat (length x) = jx + 1.
Hypothesis HxX : forall j, 0 <= j <= jx -> fx (nz x j) (X j) 0.
Hypothesis HX : forall j, 0 <= X j < 2 ^ 24.
Hypothesis HXo : forall j, jx < j -> X j = 0.
Notation d := (digit (IPIO2 b)).

Definition qv (k : Z) : Z := X 0 * d (jv + k) + X 1 * d (jv + k - 1) + X 2 * d (jv + k - 2).
Lemma prod_range j i : 0 <= X j * d i < 2 ^ 48.
Proof. pose proof (HX j). pose proof (digit_range b i). change (2 ^ 48) with (2 ^ 24 * 2 ^ 24). nia. Qed.
Lemma qv_range k : 0 <= qv k < 3 * 2 ^ 48.
Proof. unfold qv. pose proof (prod_range 0 (jv + k)). pose proof (prod_range 1 (jv + k - 1)). pose proof (prod_range 2 (jv + k - 2)). lia. Qed.
Definition okf (f : list Z) (n : Z) : Prop := Z.of_nat (length f) = 20 /\ forall k, 0 <= k <= n -> fx (nz f k) (d (jv - jx + k)) 0.
Definition okq (q : list Z) (n : Z) : Prop := Z.of_nat (length q) = 20 /\ forall k, 0 <= k <= n -> fx (nz q k) (qv k) 0.

Lemma rpl_f_ok : exists f, rpl_f b jx jv jk = Some f /\ okf f (jx + jk).
Proof.
  unfold rpl_f. rewrite !to_i_small by (try lia; change (2 ^ (32 - 1)) with 2147483648; lia).
  rewrite ssub_ok by (change (2 ^ (32 - 1)) with 2147483648; lia). cbn [bind]. rewrite uadd_ok by (change (2 ^ 64) with 18446744073709551616; lia). cbn [bind].
  forup (fun i (s : Z * list Z) => fst s = jv - jx + i /\ Z.of_nat (length (snd s)) = 20 /\
    forall k, 0 <= k < i -> fx (nz (snd s) k) (d (jv - jx + k)) 0) as (s' & E & H1 & H2 & H3); [lia| | |rewrite E].
  - cbn [fst snd]. rewrite repeat_length. split; [lia|split; [reflexivity|intros; lia]].
  - intros i [j f] Hi (H1 & H2 & H3). cbn [fst snd] in *. subst j.
    assert (exists v, (if jv - jx + i <? 0 then Some 0 else
                 let* dd := arr_get (IPIO2 b) (to_u 64 (jv - jx + i)) in Some (of_int f64 dd)) = Some v /\ fx v (d (jv - jx + i)) 0) as (v & -> & Hv).
    { destruct (Z.ltb_spec (jv - jx + i) 0).
      - exists 0. split; [reflexivity|]. rewrite digit_neg by lia. apply fx_zero.
      - rewrite to_u_small by (change (2 ^ 64) with 18446744073709551616; lia). rewrite tab_get by lia. cbn [bind].
        eexists; split; [reflexivity|]. apply fx_int. pose proof (digit_range b (jv - jx + i)). lia. }
    cbn [bind]. destruct (arr_set_ok f i v ltac:(lia)) as (f' & -> & L' & K). cbn [bind].
    rewrite sadd_ok by (change (2 ^ (32 - 1)) with 2147483648; lia). cbn [bind]. eexists; split; [reflexivity|]. cbn [fst snd].
    split; [lia|split; [lia|]]. intros k Hk. rewrite K by lia. destruct (Z.eqb_spec k i) as [->|]; [exact Hv|]. apply H3; lia.
  - cbn [bind]. eexists; split; [reflexivity|]. split; [exact H2|]. intros k Hk. apply H3; lia.
Qed.

Lemma rpl_dot_ok f n : 0 <= n -> jx + n < 20 -> okf f (jx + n) -> exists w, rpl_dot x f jx n = Some w /\ fx w (qv n) 0.
Proof.
  intros Hn Hn2 (Lf & Hf). unfold rpl_dot.
  set (ps := fun j => (if 0 <? j then X 0 * d (jv + n) else 0) + (if 1 <? j then X 1 * d (jv + n - 1) else 0) + (if 2 <? j then X 2 * d (jv + n - 2) else 0)).
  forup (fun j w => fx w (ps j) 0) as (w & E & H); [lia| | |rewrite E].
  - apply fx_zero.
  - intros j w Hj Hw. rewrite arr_get_ok by lia. cbn [bind]. rewrite uadd_ok by (change (2 ^ 64) with 18446744073709551616; lia). cbn [bind].
    rewrite usub_ok by lia. cbn [bind]. rewrite arr_get_ok by lia. cbn [bind]. eexists; split; [reflexivity|].
    pose proof (prod_range j (jv + n - j)) as PR. pose proof (prod_range 0 (jv + n)). pose proof (prod_range 1 (jv + n - 1)). pose proof (prod_range 2 (jv + n - 2)).
    assert (Hm : fx (nz x j *: nz f (jx + n - j)) (X j * d (jv + n - j)) 0).
    { apply (fx_cast _ (X j * d (jv - jx + (jx + n - j))) (0 + 0)); [|f_equal; f_equal; lia|lia].
      replace (jv + n - j) with (jv - jx + (jx + n - j)) in PR by lia.
      apply fx_mul; [apply HxX; lia|apply Hf; lia|lia|lia]. }
    assert (Hps : ps (j + 1) = ps j + X j * d (jv + n - j)).
    { assert (j = 0 \/ j = 1 \/ j = 2) as [-> | [-> | ->]] by lia; unfold ps; cbn [Z.ltb Z.compare Z.add Pos.add Pos.compare Pos.compare_cont Pos.succ]; rewrite ?Z.sub_0_r; lia. }
    rewrite Hps. apply fx_add; try assumption; [|lia].
    assert (0 <= ps j <= 2 ^ 50); [|lia]. unfold ps. destruct (0 <? j), (1 <? j), (2 <? j); lia.
  - eexists; split; [reflexivity|]. replace (qv n) with (ps (jx + 1)); [exact H|]. unfold ps, qv.
    assert (jx = 0 \/ jx = 1 \/ jx = 2) as [J | [J | J]] by lia; rewrite J; cbn [Z.ltb Z.compare Z.add Pos.add Pos.compare Pos.compare_cont Pos.succ];
      rewrite ?(HXo 1) by lia; rewrite ?(HXo 2) by lia; ring.
Qed.

Lemma rpl_q_ok f : okf f (jx + jk) -> exists q, rpl_q x f jx jk = Some q /\ okq q jk.
Proof.
  intros Hf. unfold rpl_q.
  forup (fun i q => okq q (i - 1)) as (q & E & H); [lia| | |rewrite E].
  - split; [rewrite repeat_length; reflexivity|intros; lia].
  - intros i q Hi (L & Hq). destruct (rpl_dot_ok f i) as (w & -> & Hw); [lia|lia|split; [apply Hf|intros; apply Hf; lia]|]. cbn [bind].
    destruct (arr_set_ok q i w ltac:(lia)) as (q' & -> & L' & K). eexists; split; [reflexivity|].
    split; [lia|]. intros k Hk. rewrite K by lia. destruct (Z.eqb_spec k i) as [->|]; [exact Hw|]. apply Hq; lia.
  - eexists; split; [reflexivity|]. replace jk with (jk + 1 - 1) by lia. exact H.
Qed.

(** The truncated product as an integer *)
Fixpoint Sn (n : nat) : Z := match n with O => 0 | S m => Sn m * 2 ^ 24 + qv (Z.of_nat m) end.

Lemma rpl_distill_ok q iq jz : okq q jz -> Z.of_nat (length iq) = 20 -> 1 <= jz <= 19 ->
  exists z iq' z0, rpl_distill q iq jz = Some (z, iq') /\ fx z z0 0 /\ 0 <= z0 < 2 ^ 51 /\ dig iq' jz /\
    Sn (Z.to_nat (jz + 1)) = z0 * 2 ^ (24 * jz) + Iv iq' (Z.to_nat jz).
Proof.
  intros (Lq & Hq) Li Hz. unfold rpl_distill. rewrite arr_get_ok by lia. cbn [bind].
  fordn (fun j (s : Z * Z * list Z) => let '(i, z, iq) := s in i = jz - j /\ exists zz, fx z zz 0 /\ 0 <= zz < 2 ^ 51 /\
     dig iq (jz - j) /\ Sn (Z.to_nat (jz + 1)) = 2 ^ (24 * (jz - j)) * (2 ^ 24 * Sn (Z.to_nat j) + zz) + Iv iq (Z.to_nat (jz - j))) as (s & E & H); [lia| | |rewrite E].
  - split; [lia|]. exists (qv jz). split; [apply Hq; lia|]. split; [pose proof (qv_range jz); lia|]. split; [split; [exact Li|intros; lia]|].
    rewrite Z.sub_diag. change (Z.to_nat 0) with 0%nat. cbn [Iv]. change (2 ^ (24 * 0)) with 1.
    replace (Z.to_nat (jz + 1)) with (S (Z.to_nat jz)) by lia. cbn [Sn]. rewrite Z2Nat.id by lia. ring.
  - intros j [[i z] l] Hj (-> & zz & Hzz & Rz & (Ll & Dl) & HS).
    set (h := zz / 2 ^ 24).
    assert (Hh : 0 <= h < 2 ^ 27) by (unfold h; split; [apply Z.div_pos; lia|apply Z.div_lt_upper_bound; lia]).
    assert (Hdm := Z.div_mod zz (2 ^ 24) ltac:(lia)). fold h in Hdm. assert (Hmb := Z.mod_pos_bound zz (2 ^ 24) ltac:(lia)).
    assert (F1 : fx (x1p_24 *: z) zz (- 24)) by (apply (fx_cast _ (1 * zz) (-24 + 0)); [apply fx_mul; [exact fx_x1p_24|exact Hzz|lia|lia]|lia|lia]).
    assert (T1 : to_i32 f64 (x1p_24 *: z) = h) by (apply fx_trunc; [lia|lia|exact F1|fold h; lia]).
    rewrite T1. cbv zeta.
    assert (F2 : fx (of_int f64 h) h 0) by (apply fx_int; lia).
    assert (F3 : fx (x1p24 *: of_int f64 h) (h * 2 ^ 24) 0).
    { apply fx_shift; [lia|]. apply (fx_cast _ (1 * h) (24 + 0)); [apply fx_mul; [exact fx_x1p24|exact F2|lia|lia]|lia|lia]. }
    assert (F4 : fx (z -: (x1p24 *: of_int f64 h)) (zz mod 2 ^ 24) 0).
    { apply (fx_cast _ (zz - h * 2 ^ 24) 0); [apply fx_sub; try assumption; lia|lia|lia]. }
    rewrite (fx_toint _ (zz mod 2 ^ 24) ltac:(lia) F4). rewrite to_u_small by (change (2 ^ 64) with 18446744073709551616; lia).
    destruct (arr_set_ok l (jz - j) (zz mod 2 ^ 24) ltac:(lia)) as (l' & -> & L' & K). cbn [bind].
    rewrite usub_ok by lia. cbn [bind]. rewrite arr_get_ok by lia. cbn [bind]. rewrite sadd_ok by (change (2 ^ (32 - 1)) with 2147483648; lia). cbn [bind].
    eexists; split; [reflexivity|]. cbv beta iota. split; [lia|]. exists (qv (j - 1) + h). pose proof (qv_range (j - 1)) as QR.
    split; [apply fx_add; [apply Hq; lia|exact F2|lia|lia]|]. split; [lia|]. split.
    { split; [lia|]. intros i Hi. rewrite K by lia. destruct (Z.eqb_spec i (jz - j)); [lia|]. apply Dl; lia. }
    rewrite HS. replace (Z.to_nat j) with (S (Z.to_nat (j - 1))) by lia. cbn [Sn]. rewrite Z2Nat.id by lia.
    replace (Z.to_nat (jz - (j - 1))) with (S (Z.to_nat (jz - j))) by lia. cbn [Iv]. rewrite Z2Nat.id by lia.
    rewrite K, Z.eqb_refl by lia. rewrite (Iv_ext l' l) by (intros i Hi; rewrite K by lia; destruct (Z.eqb_spec i (jz - j)); [lia|reflexivity]).
    replace (24 * (jz - (j - 1))) with (24 + 24 * (jz - j)) by lia. rewrite Z.pow_add_r by lia.
    generalize (2 ^ (24 * (jz - j))) (Sn (Z.to_nat (j - 1))) (Iv l (Z.to_nat (jz - j))) (qv (j - 1)). intros. rewrite Hdm at 1. ring.
  - destruct s as [[i z] l]. destruct H as (-> & zz & A & B & C & D). cbn [bind]. exists z, l, zz. split; [reflexivity|].
    change (Z.to_nat (1 - 1)) with 0%nat in D. cbn [Sn] in D. replace (jz - (1 - 1)) with jz in * by lia.
    split; [exact A|]. split; [exact B|]. split; [exact C|]. rewrite D. ring.
Qed.
End Rpl.
