(** The table of 24-bit digits of 2/pi is right, and what the recomputation loop of rem_pio2_large has computed (with the digits used) is x * 2/pi up to a small error. *)
From Coq Require Import ZArith Reals Lia Lra Bool List Psatz.
From Flocq Require Import Core.
From Verif Require Import Base Spec SpecFun Format Ieee M_basic M_elib M_rempio2 P_cf P_fx P_rpl P_rpl2 P_rpl3 P_pibound.
Import ListNotations.
Open Scope Z_scope.

(** the number written by the first [n] digits *)
Fixpoint pre (T : list Z) (n : nat) : Z := match n with O => 0 | S m => pre T m * 2 ^ 24 + digit T (Z.of_nat m) end.
Lemma pre_tables b n : (n <= 66)%nat -> pre (IPIO2 b) n = pre (IPIO2 true) n.
Proof. induction n as [|n IH]; intros H; [reflexivity|]. cbn [pre]. rewrite (digit_tables b) by lia. rewrite IH by lia. reflexivity. Qed.
Lemma tab_chk : (let T := pre (IPIO2 true) 66 in let P := T * PI_LO in (P + T * (PI_HI - PI_LO) <=? 2 ^ 3305) && (2 ^ 3305 <? P + PI_LO)) = true.
Proof. vm_compute. reflexivity. Qed.
Lemma tab_int b : pre (IPIO2 b) 66 * PI_HI <= 2 ^ 3305 /\ 2 ^ 3305 < (pre (IPIO2 b) 66 + 1) * PI_LO.
Proof.
  rewrite pre_tables by lia. pose proof tab_chk as H. cbv zeta in H. revert H. generalize (pre (IPIO2 true) 66), PI_LO, PI_HI, (2 ^ 3305). intros T L U N H.
  apply andb_prop in H as [H1 H2]. apply Z.leb_le in H1. apply Z.ltb_lt in H2. split; [replace (T * U) with (T * L + T * (U - L)) by ring; exact H1|replace ((T + 1) * L) with (T * L + L) by ring; exact H2].
Qed.
Lemma pre_nonneg b n : (n <= 66)%nat -> 0 <= pre (IPIO2 b) n.
Proof. induction n as [|n IH]; intros H; [cbn; lia|]. cbn [pre]. pose proof (digit_range b (Z.of_nat n)). specialize (IH ltac:(lia)). lia. Qed.
Lemma tab_66 b : (IZR (pre (IPIO2 b) 66) <= 2 / PI * IZR (2 ^ (24 * 66)) < IZR (pre (IPIO2 b) 66) + 1)%R.
Proof.
  pose proof (tab_int b) as [H1 H2]. pose proof PI_1720 as [L U]. pose proof PI_RGT_0 as HP.
  assert (P : (0 < IZR (2 ^ 1720))%R) by (apply (IZR_lt 0); reflexivity).
  assert (E : IZR (2 ^ 3305) = (2 * IZR (2 ^ (24 * 66)) * IZR (2 ^ 1720))%R).
  { rewrite <- (mult_IZR 2), <- mult_IZR. f_equal. }
  set (T := pre (IPIO2 b) 66) in *. assert (T0 : 0 <= T) by (apply pre_nonneg; lia). clearbody T.
  apply IZR_le in H1. apply IZR_lt in H2. rewrite mult_IZR in H1, H2. rewrite E in H1, H2. rewrite plus_IZR in H2.
  set (A := IZR (2 ^ (24 * 66))) in *. set (B := IZR (2 ^ 1720)) in *. clearbody A B. apply IZR_le in T0.
  assert (S1 : (IZR T * PI <= 2 * A)%R).
  { apply Rmult_le_reg_r with B; [exact P|]. eapply Rle_trans; [|exact H1]. rewrite Rmult_assoc. apply Rmult_le_compat_l; [exact T0|exact U]. }
  assert (S2 : (2 * A < (IZR T + 1) * PI)%R).
  { apply Rmult_lt_reg_r with B; [exact P|]. eapply Rlt_le_trans; [exact H2|]. rewrite Rmult_assoc. apply Rmult_le_compat_l; [lra|exact L]. }
  split.
  - apply Rmult_le_reg_r with PI; [exact HP|]. replace (2 / PI * A * PI)%R with (2 * A)%R by (field; lra). exact S1.
  - apply Rmult_lt_reg_r with PI; [exact HP|]. replace (2 / PI * A * PI)%R with (2 * A)%R by (field; lra). exact S2.
Qed.
Lemma pre_down b n v : (IZR (pre (IPIO2 b) (S n)) <= v * IZR (2 ^ 24) < IZR (pre (IPIO2 b) (S n)) + 1)%R -> (IZR (pre (IPIO2 b) n) <= v < IZR (pre (IPIO2 b) n) + 1)%R.
Proof.
  cbn [pre]. pose proof (digit_range b (Z.of_nat n)) as [D1 D2]. rewrite plus_IZR, mult_IZR. intros [H1 H2].
  assert (D3 : (IZR (digit (IPIO2 b) (Z.of_nat n)) + 1 <= IZR (2 ^ 24))%R) by (rewrite <- (plus_IZR _ 1); apply IZR_le; lia). apply IZR_le in D1. change (IZR (2 ^ 24)) with 16777216%R in *. lra.
Qed.
Theorem pre_ok b n : (n <= 66)%nat -> (IZR (pre (IPIO2 b) n) <= 2 / PI * bpow radix2 (24 * Z.of_nat n) < IZR (pre (IPIO2 b) n) + 1)%R.
Proof.
  intros H. remember (66 - n)%nat as k eqn:K. revert n H K. induction k as [|k IH]; intros n H K.
  - assert (n = 66)%nat as -> by lia. pose proof (tab_66 b) as T. change (24 * Z.of_nat 66) with (24 * 66). rewrite <- IZR_Zpower by lia. exact T.
  - apply pre_down. specialize (IH (S n) ltac:(lia) ltac:(lia)). replace (24 * Z.of_nat (S n)) with (24 * Z.of_nat n + 24) in IH by lia. rewrite bpow_plus in IH. change (bpow radix2 24) with (IZR (2 ^ 24)) in IH.
    rewrite <- Rmult_assoc in IH. exact IH.
Qed.
Lemma win_pre b jv n : 0 <= jv -> pre (IPIO2 b) (Z.to_nat (jv + 1) + n) = win (IPIO2 b) jv n + 2 ^ (24 * (Z.of_nat n + 3)) * pre (IPIO2 b) (Z.to_nat (jv - 2)).
Proof.
  intros J. induction n as [|n IH].
  - rewrite Nat.add_0_r. cbn [win]. change (24 * (Z.of_nat 0 + 3)) with 72. destruct (Z.eq_dec jv 0) as [-> | J0]; [destruct b; vm_compute; reflexivity|]. destruct (Z.eq_dec jv 1) as [-> | J1].
    { change (Z.to_nat (1 + 1)) with 2%nat. change (Z.to_nat (1 - 2)) with 0%nat. cbn [pre]. change (Z.of_nat 0) with 0. change (Z.of_nat 1) with 1. change (digit (IPIO2 b) (1 - 2)) with 0. change (1 - 1) with 0. ring. }
    replace (Z.to_nat (jv + 1)) with (S (S (S (Z.to_nat (jv - 2))))) by lia. cbn [pre]. replace (Z.of_nat (S (S (Z.to_nat (jv - 2))))) with jv by lia. replace (Z.of_nat (S (Z.to_nat (jv - 2)))) with (jv - 1) by lia. replace (Z.of_nat (Z.to_nat (jv - 2))) with (jv - 2) by lia.
    generalize (pre (IPIO2 b) (Z.to_nat (jv - 2))). intros p. change (2 ^ 72) with (2 ^ 24 * 2 ^ 48). change (2 ^ 48) with (2 ^ 24 * 2 ^ 24). ring.
  - replace (Z.to_nat (jv + 1) + S n)%nat with (S (Z.to_nat (jv + 1) + n)) by lia. cbn [pre]. rewrite IH. cbn [win]. replace (Z.of_nat (Z.to_nat (jv + 1) + n)) with (jv + Z.of_nat (S n)) by lia.
    replace (24 * (Z.of_nat (S n) + 3)) with (24 * (Z.of_nat n + 3) + 24) by lia. rewrite Z.pow_add_r by lia. ring.
Qed.

Lemma pw2 n : 0 <= n -> IZR (2 ^ n) = bpow radix2 n. Proof. intros H. change 2 with (radix_val radix2). now apply IZR_Zpower. Qed.
Lemma one_mul a p : 0 < a -> 0 <= p -> p <= a * p. Proof. nia. Qed.
Lemma Iv_mono iq jz i : dig iq jz -> 0 <= i < jz -> nz iq i <> 0 -> 2 ^ (24 * i) <= Iv iq (Z.to_nat jz).
Proof.
  intros Dg Hi NZ. pose proof (Iv_top iq (i + 1) ltac:(lia)) as T. replace (i + 1 - 1) with i in T by lia.
  pose proof (dig_Iv iq jz i Dg ltac:(lia)) as R2. destruct Dg as [_ Dg]. pose proof (Dg i ltac:(lia)) as Di.
  assert (G : forall k, (Z.to_nat (i + 1) + k <= Z.to_nat jz)%nat -> Iv iq (Z.to_nat (i + 1)) <= Iv iq (Z.to_nat (i + 1) + k)).
  { induction k as [|k IH]; intros Hk; [rewrite Nat.add_0_r; lia|]. rewrite Nat.add_succ_r. cbn [Iv]. specialize (IH ltac:(lia)). pose proof (Dg (Z.of_nat (Z.to_nat (i + 1) + k)) ltac:(lia)) as DD.
    assert (0 <= 2 ^ (24 * Z.of_nat (Z.to_nat (i + 1) + k))) as PP by (apply Z.pow_nonneg; lia). pose proof (Z.mul_nonneg_nonneg _ _ (proj1 DD) PP). lia. }
  specialize (G (Z.to_nat (jz - i - 1)) ltac:(lia)). replace (Z.to_nat (i + 1) + Z.to_nat (jz - i - 1))%nat with (Z.to_nat jz) in G by lia.
  pose proof (one_mul (nz iq i) (2 ^ (24 * i)) ltac:(lia) ltac:(apply Z.pow_nonneg; lia)). lia.
Qed.
Section Val.
Variable b : bool.
Variables jv jk q0 : Z.
Variable X : Z -> Z.
Hypothesis Hjv : 0 <= jv <= 41.
Hypothesis Hjk : 3 <= jk <= 4.
Hypothesis Hq0 : -27 <= q0 <= 2.
Hypothesis Hq0v : 0 < jv -> -21 <= q0.
Hypothesis HX : forall j, 0 <= X j < 2 ^ 24.
(** the argument whose multiple is computed *)
Definition argR : R := (IZR (Xt X) * bpow radix2 (q0 + 24 * (jv + 1) - 48))%R.
Lemma rpl_val n ih z iq q jz : rpl_post b jv jk q0 X (n, ih, z, iq, q, jz) ->
  exists N Zi, N mod 8 = n mod 8 /\
    let Q := Zi * 2 ^ (24 * jz) + Iv iq (Z.to_nat jz) in
    let V := (IZR Q * bpow radix2 (q0 - 24 * jz))%R in
    fx z Zi (Z.min q0 0) /\ (0 <= Zi <= 2 ^ (- Z.min q0 0) /\ (0 <= q0 -> Zi = 0)) /\ dig iq jz /\ Z.of_nat (length q) = 20 /\ jk <= jz <= 10 /\ (Zi <> 0 \/ exists i, jk <= i < jz /\ nz iq i <> 0) /\ (ih = 0 \/ ih = 1 \/ ih = 2) /\
    2 ^ (24 * (jz - jk) + 31) <= Q /\ 2 ^ (24 * jk) <= Q /\ 2 * Q <= 2 ^ (24 * jz - q0) /\
    (0 <= argR * (2 / PI) - IZR N - (if 0 <? ih then - V else V) <= bpow radix2 (27 - 24 * jz + q0))%R.
Proof.
  intros (Zi & N & Hn & Fz & Hz & Dg & Lq & Hjz & (Q1 & Q2 & HS) & Hmod & Hih & NZ). set (Q := Zi * 2 ^ (24 * jz) + Iv iq (Z.to_nat jz)) in *.
  pose proof (Sn_win b jv [] X (Z.to_nat jz)) as SW. rewrite Z2Nat.id in SW by lia. replace (S (Z.to_nat jz)) with (Z.to_nat (jz + 1)) in SW by lia.
  pose proof (Lo_range b jv [] X HX jz) as LR. pose proof (Xt_range [] X HX) as XR.
  pose proof (pre_ok b (Z.to_nat (jv + 1) + Z.to_nat jz) ltac:(lia)) as PO. rewrite (win_pre b jv (Z.to_nat jz) ltac:(lia)) in PO. rewrite Z2Nat.id in PO by lia.
  replace (24 * Z.of_nat (Z.to_nat (jv + 1) + Z.to_nat jz)) with (24 * (jv + 1 + jz)) in PO by lia.
  set (W := win (IPIO2 b) jv (Z.to_nat jz)) in *. set (P' := pre (IPIO2 b) (Z.to_nat (jv - 2))) in *. set (S := Sn b jv X (Z.to_nat (jz + 1))) in *. set (L := Lo b jv X jz) in *. set (H := Hi b jv X) in *.
  (* the part that is a multiple of 8 *)
  assert (M8 : exists N2, 2 ^ (24 * (jz + 3)) * (H + Xt X * P') = 8 * N2 * 2 ^ (24 * (jz + 2) - q0)).
  { destruct (Z.eq_dec jv 0) as [J | J].
    - exists 0. assert (H = 0) as -> by (unfold H, Hi; rewrite J; rewrite !digit_neg by lia; ring). assert (P' = 0) as -> by (unfold P'; rewrite J; reflexivity). ring.
    - exists ((H + Xt X * P') * 2 ^ (21 + q0)). replace (24 * (jz + 3)) with (3 + (21 + q0) + (24 * (jz + 2) - q0)) by lia. rewrite !Z.pow_add_r by lia. change (2 ^ 3) with 8. ring. }
  destruct M8 as [N2 M8].
  exists (N + 8 * N2), Zi. split. { rewrite Z.mul_comm, Z_mod_plus_full. symmetry. exact Hmod. }
  cbv zeta. fold Q. split; [exact Fz|]. split; [exact Hz|]. split; [exact Dg|]. split; [exact Lq|]. split; [exact Hjz|]. split; [exact NZ|]. split; [exact Hih|]. split; [exact Q1|]. split; [|split; [exact Q2|]].
  - clear - Dg Hjz Hjk NZ Hz. destruct Hz as [Hz _]. assert (P0 : 0 <= 2 ^ (24 * jz)) by (apply Z.pow_nonneg; lia). pose proof (dig_Iv iq jz jz Dg ltac:(lia)) as R0. destruct NZ as [NZ | (i & Hi & NZ)].
    + assert (2 ^ (24 * jk) <= 2 ^ (24 * jz)) by (apply Z.pow_le_mono_r; lia). pose proof (one_mul Zi (2 ^ (24 * jz)) ltac:(lia) P0). lia.
    + pose proof (Iv_mono iq jz i Dg ltac:(lia) NZ). assert (2 ^ (24 * jk) <= 2 ^ (24 * i)) by (apply Z.pow_le_mono_r; lia).
      assert (0 <= Zi * 2 ^ (24 * jz)) by (apply Z.mul_nonneg_nonneg; [lia|exact P0]). lia.
  - set (w := 24 * (jz + 2) - q0). assert (w0 : 0 <= w) by (unfold w; lia).
    assert (EA : (argR * (2 / PI) = IZR (Xt X) * (2 / PI * bpow radix2 (24 * (jv + 1 + jz))) * bpow radix2 (- w))%R).
    { unfold argR. replace (q0 + 24 * (jv + 1) - 48) with (24 * (jv + 1 + jz) + - w) by (unfold w; lia). rewrite bpow_plus. ring. }
    set (v := (2 / PI * bpow radix2 (24 * (jv + 1 + jz)))%R) in *. rewrite plus_IZR, mult_IZR in PO.
    assert (PW : (0 < bpow radix2 w)%R) by apply bpow_gt_0. assert (Pm : (bpow radix2 (- w) * bpow radix2 w = 1)%R) by (rewrite <- bpow_plus; replace (- w + w) with 0 by lia; reflexivity).
    assert (EI : IZR (Xt X * W + Xt X * (2 ^ (24 * (jz + 3)) * P')) = (IZR (N + 8 * N2) * bpow radix2 w + (if 0 <? ih then - IZR Q else IZR Q) * bpow radix2 48 + IZR L)%R).
    { rewrite SW, HS. replace (Xt X * (2 ^ (24 * (jz + 3)) * P')) with (2 ^ (24 * (jz + 3)) * (H + Xt X * P') - 2 ^ (24 * (jz + 3)) * H) by ring. rewrite M8.
      replace (2 ^ 48 * (N * 2 ^ (24 * jz - q0) + (if 0 <? ih then - Q else Q)) + 2 ^ (24 * (jz + 3)) * H + L + (8 * N2 * 2 ^ (24 * (jz + 2) - q0) - 2 ^ (24 * (jz + 3)) * H))
        with (N * (2 ^ (24 * jz - q0) * 2 ^ 48) + 8 * N2 * 2 ^ (24 * (jz + 2) - q0) + 2 ^ 48 * (if 0 <? ih then - Q else Q) + L) by ring.
      rewrite <- Z.pow_add_r by lia. replace (24 * jz - q0 + 48) with w by (unfold w; lia). fold w.
      rewrite !plus_IZR, !mult_IZR. rewrite (pw2 w) by exact w0. change (IZR (2 ^ 48)) with (bpow radix2 48). destruct (0 <? ih); rewrite ?opp_IZR; ring. }
    rewrite plus_IZR, !mult_IZR in EI.
    set (D := (argR * (2 / PI) - IZR (N + 8 * N2) - (if 0 <? ih then - (IZR Q * bpow radix2 (q0 - 24 * jz)) else IZR Q * bpow radix2 (q0 - 24 * jz)))%R).
    assert (ED : (D * bpow radix2 w = IZR (Xt X) * (v - IZR W - IZR (2 ^ (24 * (jz + 3))) * IZR P') + IZR L)%R).
    { unfold D. rewrite EA. assert (EQ : (bpow radix2 (q0 - 24 * jz) * bpow radix2 w = bpow radix2 48)%R) by (rewrite <- bpow_plus; f_equal; unfold w; lia).
      set (c := bpow radix2 (q0 - 24 * jz)) in *. set (m := bpow radix2 (- w)) in *. set (p := bpow radix2 w) in *. set (N3 := IZR (N + 8 * N2)) in *. set (x := IZR (Xt X)) in *. clearbody c m p N3 x.
      destruct (0 <? ih).
      - replace ((x * v * m - N3 - - (IZR Q * c)) * p)%R with (x * v * (m * p) - N3 * p + IZR Q * (c * p))%R by ring. rewrite Pm, EQ. lra.
      - replace ((x * v * m - N3 - (IZR Q * c)) * p)%R with (x * v * (m * p) - N3 * p - IZR Q * (c * p))%R by ring. rewrite Pm, EQ. lra. }
    assert (XR' : (0 <= IZR (Xt X) <= bpow radix2 72)%R) by (split; [apply (IZR_le 0); lia|change (bpow radix2 72) with (IZR (2 ^ 72)); apply IZR_le; lia]).
    assert (LR' : (0 <= IZR L <= bpow radix2 74)%R) by (split; [apply (IZR_le 0); lia|change (bpow radix2 74) with (IZR (2 ^ 74)); apply IZR_le; lia]).
    replace (27 - 24 * jz + q0) with (75 + - w) by (unfold w; lia). rewrite bpow_plus. change (bpow radix2 75) with 37778931862957161709568%R. change (bpow radix2 74) with 18889465931478580854784%R in LR'. change (bpow radix2 72) with 4722366482869645213696%R in XR'.
    set (y := (v - IZR W - IZR (2 ^ (24 * (jz + 3))) * IZR P')%R) in *. assert (Y : (0 <= y <= 1)%R) by (unfold y; lra).
    assert (DB : (0 <= D * bpow radix2 w <= 37778931862957161709568)%R) by (rewrite ED; nra).
    split; [nra|]. apply Rmult_le_reg_r with (bpow radix2 w); [exact PW|]. rewrite Rmult_assoc, Pm. lra.
Qed.
End Val.
