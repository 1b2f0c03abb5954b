(** Formatting a float in hexadecimal and parsing the text back. *)
From Coq Require Import ZArith Reals Lia Lra Bool List.
From Flocq Require Import Core.
From Verif Require Import Base Spec SpecHex Format Ieee P_format P_ieee P_real P_near P_fma4 M_hex P_hex P_hex2 P_hex3 P_hex4 P_hex5 P_hex6.
Import ListNotations.
Open Scope Z_scope.

(** ** Digits *)
Lemma digits_rev_ok base : 2 <= base -> forall fuel n, 0 <= n < 2 ^ Z.of_nat fuel -> 
  number base (rev (digits_rev fuel base n)) = n /\ Forall (fun d => 0 <= d < base) (digits_rev fuel base n) /\
  (length (digits_rev fuel base n) <= fuel)%nat.
Proof.
  intros Hb fuel. induction fuel as [|k IH]; intros n Hn.
  - change (2 ^ Z.of_nat 0) with 1 in Hn. cbn. split; [lia|]. split; [constructor|lia].
  - cbn [digits_rev rev length]. pose proof (Z.mod_pos_bound n base ltac:(lia)) as Bm. pose proof (Z.div_mod n base ltac:(lia)) as D.
    rewrite number_app. destruct (Z.ltb_spec n base) as [L|L].
    + cbn. rewrite Z.mod_small by lia. split; [lia|]. split; [constructor; [lia|constructor]|lia].
    + assert (B : 0 <= n / base < 2 ^ Z.of_nat k).
      { split; [apply Z.div_pos; lia|]. apply Z.div_lt_upper_bound; [lia|].
        rewrite Nat2Z.inj_succ, Z.pow_succ_r in Hn by lia. apply Z.lt_le_trans with (2 * 2 ^ Z.of_nat k); [lia|].
        apply Z.mul_le_mono_nonneg_r; [apply Z.pow_nonneg; lia|lia]. }
      destruct (IH (n / base) B) as (E & F & L2). rewrite E. split; [lia|]. split; [constructor; [lia|exact F]|lia].
Qed.
Lemma digits_len base : 2 <= base -> forall fuel n k, 0 <= n < base ^ Z.of_nat (S k) -> (length (digits_rev fuel base n) <= S k)%nat.
Proof.
  intros Hb fuel. induction fuel as [|f IH]; intros n k Hn; cbn [digits_rev length]; [lia|].
  destruct (Z.ltb_spec n base) as [L|L]; [cbn; lia|].
  destruct k as [|k]; [change (Z.of_nat 1) with 1 in Hn; rewrite Z.pow_1_r in Hn; lia|].
  specialize (IH (n / base) k). rewrite Nat2Z.inj_succ, Z.pow_succ_r in Hn by lia.
  assert (0 <= n / base < base ^ Z.of_nat (S k)) by (split; [apply Z.div_pos; lia|apply Z.div_lt_upper_bound; lia]).
  specialize (IH H). lia.
Qed.

Lemma digit_char_hex d : 0 <= d < 16 -> hexdig (digit_char d) d.
Proof. intros H. unfold digit_char, hexdig. destruct (Z.ltb_spec d 10); lia. Qed.
Lemma digit_char_dec d : 0 <= d < 10 -> decdig (digit_char d) d.
Proof. intros H. unfold digit_char, decdig. destruct (Z.ltb_spec d 10); lia. Qed.
Lemma map_chars (P : Z -> Z -> Prop) (Q : Z -> Prop) l : (forall d, Q d -> P (digit_char d) d) -> Forall Q l -> Forall2 P (map digit_char l) l.
Proof. intros H F. induction F; cbn; constructor; auto. Qed.

Lemma fmt_radix_ok base n : 2 <= base -> 0 <= n -> exists ds, fmt_radix base n = map digit_char ds /\ number base ds = n /\
  Forall (fun d => 0 <= d < base) ds /\ ds <> [] /\ (length ds <= S (Z.to_nat (Z.log2 n)))%nat /\
  (forall k, n < base ^ Z.of_nat (S k) -> (length ds <= S k)%nat).
Proof.
  intros Hb Hn. set (fuel := S (Z.to_nat (Z.log2 n))).
  assert (B : 0 <= n < 2 ^ Z.of_nat fuel).
  { split; [exact Hn|]. unfold fuel. rewrite Nat2Z.inj_succ, Z2Nat.id by apply Z.log2_nonneg.
    destruct (Z.eq_dec n 0) as [-> |N0]; [reflexivity|]. apply Z.log2_spec. lia. }
  destruct (digits_rev_ok base Hb fuel n B) as (E & F & L).
  exists (rev (digits_rev fuel base n)). split; [reflexivity|]. split; [exact E|]. split; [now apply Forall_rev|].
  split.
  { unfold fuel. cbn [digits_rev rev]. intros C. apply app_eq_nil in C. destruct C as [_ C]. discriminate C. }
  rewrite rev_length. split; [exact L|]. intros k Hk. now apply digits_len.
Qed.

Lemma number_zeros b n l : number b (repeat 0 n ++ l) = number b l.
Proof. induction n as [|n IH]; [reflexivity|]. unfold number in *. cbn [repeat app fold_left]. exact IH. Qed.
Lemma pad_ok w ds : pad_left w (map digit_char ds) = map digit_char (repeat 0 (w - length ds) ++ ds).
Proof.
  unfold pad_left. rewrite map_app, map_length. f_equal. induction (w - length ds)%nat as [|n IH]; [reflexivity|]. cbn. now rewrite IH.
Qed.

(** ** The text of a finite nonzero number *)
Lemma fmt_finite F x : isbits F x -> finite F x = true -> iszero F x = false ->
  exists s N k D ng, fmt_any_hex F x = Some s /\ hex_lit s (signbit F x) N k D ng /\
    (hex_mag N k D ng = mag_of F (expf F x) (sigf F x))%R /\ D < 2 ^ 32 /\ 4 * Z.of_nat (length s) < 2 ^ 31.
Proof.
  intros Hx Hf Hz. pose proof (fmt_facts F) as FF. pose proof (bias_facts F) as (BF & _ & BF2). pose proof (fields_range F x) as [R1 R2].
  assert (E14 : 2 ^ 14 = 16384) by reflexivity.
  apply finite_iff in Hf as He.
  unfold fmt_any_hex. rewrite is_sign_negative_eq, is_nan_eq, is_infinite_eq by exact Hx.
  rewrite (finite_not_nan F x Hf), (finite_not_inf F x Hf).
  assert (Q : feq F x ZERO = false).
  { destruct (feq F x ZERO) eqn:Q; [|reflexivity]. exfalso. apply feq_spec in Q. destruct Q as (_ & _ & Q). rewrite Hf in Q.
    destruct Q as [_ Q]. assert (Z0 : val F ZERO = 0%R).
    { unfold ZERO. replace 0 with (mkbits F false 0 0) at 1 by reflexivity. rewrite val_mkbits by lia. unfold mag_of. cbn. ring. }
    rewrite Z0 in Q. exact (iszero_false_val F x Hf Hz Q). }
  rewrite Q. rewrite exp_unbiased_ok by exact Hx. cbn [bind].
  assert (P31 : 2 ^ (32 - 1) = 2147483648) by reflexivity.
  rewrite EXP_BIAS_eq. rewrite to_i_small by (rewrite ?P31; lia). unfold SIG_BITS.
  pose proof (Z.mod_pos_bound (mw F) 4 ltac:(lia)) as M4.
  rewrite usub_ok by lia. cbn [bind].
  set (ms := (4 - mw F mod 4) mod 4). assert (Ms : 0 <= ms < 4) by (apply Z.mod_pos_bound; lia).
  set (w := (mw F + 3) / 4).
  assert (Wm : 4 * w = mw F + ms).
  { unfold w, ms. pose proof (Z.div_mod (mw F) 4 ltac:(lia)) as D. set (q := mw F / 4) in *. set (m := mw F mod 4) in *.
    assert (m = 0 \/ m = 1 \/ m = 2 \/ m = 3) as [-> |[-> |[-> | ->]]] by lia; cbn [Z.sub Z.modulo]; rewrite D.
    - replace (4 * q + 0 + 3) with (q * 4 + 3) by lia. rewrite Z.div_add_l by lia. change ((4 - 0) mod 4) with 0. change (3 / 4) with 0. lia.
    - replace (4 * q + 1 + 3) with ((q + 1) * 4) by lia. rewrite Z.div_mul by lia. change ((4 - 1) mod 4) with 3. lia.
    - replace (4 * q + 2 + 3) with ((q + 1) * 4 + 1) by lia. rewrite Z.div_add_l by lia. change ((4 - 2) mod 4) with 2. change (1 / 4) with 0. lia.
    - replace (4 * q + 3 + 3) with ((q + 1) * 4 + 2) by lia. rewrite Z.div_add_l by lia. change ((4 - 3) mod 4) with 1. change (2 / 4) with 0. lia. }
  rewrite ushl_ok by (unfold BITS, width; lia). cbn [bind].
  assert (Sg : Z.land x (SIG_MASK F) = sigf F x) by (rewrite <- frac_eq; reflexivity). rewrite Sg.
  pose proof (pow2_pos ms ltac:(lia)) as Pm.
  assert (B16 : 0 <= sigf F x * 2 ^ ms < 16 ^ w).
  { split; [apply Z.mul_nonneg_nonneg; lia|]. change 16 with (2 ^ 4). rewrite <- Z.pow_mul_r by lia. rewrite Wm, pow2_split by lia.
    apply Z.mul_lt_mono_pos_r; lia. }
  assert (W0 : 1 <= w) by lia.
  rewrite (Z.mod_small (sigf F x * 2 ^ ms)).
  2:{ split; [lia|]. apply Z.lt_le_trans with (16 ^ w); [lia|]. change 16 with (2 ^ 4). rewrite <- Z.pow_mul_r by lia. apply Z.pow_le_mono_r; [lia|]. unfold BITS, width. lia. }
  rewrite uadd_ok by (change (2 ^ 64) with 18446744073709551616; lia). cbn [bind]. fold w.
  unfold sneg. rewrite chk_ok by (rewrite P31; lia). cbn [bind].
  (* leading digit and exponent *)
  set (lead := if expf F x =? 0 then 0 else 1). set (ee := if expf F x =? 0 then 1 - bias F else expf F x - bias F).
  assert (LE : (if expf F x - bias F =? - bias F then let* e := sadd 32 (expf F x - bias F) 1 in Some (e, [48; 46])
      else Some (expf F x - bias F, [49; 46])) = Some (ee, [48 + lead; 46])).
  { unfold lead, ee. destruct (Z.eqb_spec (expf F x) 0) as [E0|E0].
    - rewrite E0. rewrite (proj2 (Z.eqb_eq _ _)) by lia. unfold sadd. rewrite chk_ok by (rewrite P31; lia). cbn [bind]. do 2 f_equal. lia.
    - rewrite (proj2 (Z.eqb_neq _ _)) by lia. reflexivity. }
  rewrite LE. cbn [bind]. clear LE Q.
  destruct (fmt_radix_ok 16 (sigf F x * 2 ^ ms) ltac:(lia) ltac:(lia)) as (ds & Ed & Nd & Fd & _ & _ & Ld).
  destruct (fmt_radix_ok 10 (Z.abs ee) ltac:(lia) ltac:(lia)) as (de & Ee & Ne & Fe & Hne & Le & _).
  assert (Lds : (length ds <= Z.to_nat w)%nat).
  { destruct (Z.to_nat w) as [|k] eqn:Ek; [lia|]. apply Ld. rewrite <- Ek, Z2Nat.id by lia. lia. }
  set (zs := repeat 0 (Z.to_nat w - length ds) ++ ds).
  assert (Lz : length zs = Z.to_nat w) by (unfold zs; rewrite app_length, repeat_length; lia).
  assert (Fz : Forall (fun d => 0 <= d < 16) zs).
  { unfold zs. apply Forall_app. split; [|exact Fd]. apply Forall_forall. intros d Hd. apply repeat_spec in Hd. lia. }
  assert (EB : - 16384 < ee < 16384) by (unfold ee; destruct (expf F x =? 0); lia).
  eexists _, (lead * 16 ^ w + sigf F x * 2 ^ ms), w, (Z.abs ee), (ee <? 0).
  split; [reflexivity|]. split; [|split; [|split]].
  - exists (if signbit F x then [45] else []), 120. eexists. split; [|split; [destruct (signbit F x); constructor|split; [now left|]]].
    { cbn [app]. reflexivity. }
    exists [48 + lead], [lead], (46 :: pad_left (Z.to_nat w) (fmt_radix 16 (sigf F x * 2 ^ ms))), zs, 112,
      [if ee <? 0 then 45 else 43], (fmt_radix 10 (Z.abs ee)), de.
    split; [cbn [app]; reflexivity|].
    split; [constructor; [|constructor]; unfold hexdig, lead; destruct (expf F x =? 0); lia|].
    split; [constructor; rewrite Ed, pad_ok; apply (map_chars _ (fun d => 0 <= d < 16)); [exact digit_char_hex|exact Fz]|].
    split; [discriminate|]. split; [now left|]. split; [destruct (ee <? 0); constructor|].
    split; [rewrite Ee; apply (map_chars _ (fun d => 0 <= d < 10)); [exact digit_char_dec|exact Fe]|]. split; [exact Hne|].
    split; [|split; [rewrite Lz; lia|now rewrite Ne]].
    unfold number. cbn [app fold_left]. rewrite fold_number. rewrite Lz, Z2Nat.id by lia.
    unfold zs. rewrite number_zeros, Nd. lia.
  - unfold hex_mag. replace (if ee <? 0 then - Z.abs ee else Z.abs ee) with ee by (destruct (Z.ltb_spec ee 0); lia).
    replace (lead * 16 ^ w + sigf F x * 2 ^ ms) with ((lead * 2 ^ mw F + sigf F x) * 2 ^ ms).
    2:{ change 16 with (2 ^ 4). rewrite <- Z.pow_mul_r by lia. rewrite Wm, pow2_split by lia. ring. }
    rewrite mult_IZR, IZR_pow2, Rmult_assoc, bp_split by lia. unfold mag_of, lead, ee. destruct (Z.eqb_spec (expf F x) 0).
    + f_equal; f_equal; lia.
    + f_equal; f_equal; lia.
  - lia.
  - assert (Le2 : (length de <= 15)%nat).
    { assert (Z.log2 (Z.abs ee) <= 14); [|lia]. destruct (Z.eq_dec ee 0) as [-> |Z0]; [cbn; lia|].
      assert (Z.log2 (Z.abs ee) < 15); [apply Z.log2_lt_pow2; [lia|change (2 ^ 15) with 32768; lia]|lia]. }
    rewrite !app_length. cbn [length]. rewrite Ed, pad_ok. fold zs. unfold fmt_signed. cbn [length]. rewrite Ee, !map_length, Lz.
    change (2 ^ 31) with 2147483648.
    assert (Z.of_nat (length (if signbit F x then [45] else [])) <= 1) by (destruct (signbit F x); cbn; lia). lia.
Qed.

Lemma mag_below_lim F x : isbits F x -> finite F x = true -> (mag_of F (expf F x) (sigf F x) < bpow radix2 (hex_lim F))%R.
Proof.
  intros Hx Hf. pose proof (val_lt_emax F x Hf) as V. unfold val in V.
  assert (A : Rabs (sval (signbit F x) (mag_of F (expf F x) (sigf F x))) = mag_of F (expf F x) (sigf F x)).
  { pose proof (mag_of_nonneg F (expf F x) (sigf F x)). pose proof (fields_range F x).
    destruct (signbit F x); cbn [sval]; rewrite ?Rabs_Ropp; apply Rabs_pos_eq; apply mag_of_nonneg; lia. }
  rewrite A in V. eapply Rlt_le_trans; [exact V|]. apply bpow_le. unfold hex_lim.
  pose proof (fmt_facts F) as FF. pose proof (bias_facts F) as (BF & _ & BF2).
  assert (2 ^ (ew F + 1) <= 2 ^ (128 - mw F)) by (apply Z.pow_le_mono_r; lia).
  rewrite Z.pow_add_r in H by lia. change (2 ^ 14) with 16384 in BF2. change (2 ^ 31) with 2147483648. lia.
Qed.

Lemma lit_exact F s neg N k D ng r x : hex_lit s neg N k D ng -> 4 * Z.of_nat (length s) < 2 ^ 31 -> D < 2 ^ 32 ->
  isbits F x -> finite F x = true -> signbit F x = neg -> hex_mag N k D ng = mag_of F (expf F x) (sigf F x) ->
  parse_any s (width F) (mw F) r = Some (Ok (x, 0)).
Proof.
  intros H L HD Hx Hf Hs Hm. pose proof (mag_below_lim F x Hx Hf) as Hl. rewrite <- Hm in Hl.
  destruct (parse_any_ok F s neg N k D ng r H L HD Hl) as (y & ovf & unf & inx & -> & By & R).
  assert (V : sval neg (hex_mag N k D ng) = val F x) by (unfold val; now rewrite Hs, Hm). rewrite V in R.
  rewrite (rnd_in_val F _ x Hf) in R. rewrite Rlt_bool_true in R by exact (val_lt_emax F x Hf).
  destruct R as (R1 & R2 & R3 & -> & R5 & R6).
  assert (inx = false) as -> by (destruct inx; [exfalso; now apply (proj1 R5 eq_refl)|reflexivity]).
  assert (unf = false) as -> by (destruct unf; [exfalso; destruct (proj1 R6 eq_refl) as [C _]; now apply C|reflexivity]).
  do 3 f_equal. apply (val_sign_inj F); congruence.
Qed.

Theorem fmt_roundtrip F x r : isbits F x -> exists s, fmt_any_hex F x = Some s /\
  (isnan F x = false -> parse_any s (width F) (mw F) r = Some (Ok (x, 0))) /\
  (isnan F x = true -> exists y, parse_any s (width F) (mw F) r = Some (Ok (y, 0)) /\ isbits F y /\ isnan F y = true /\ signbit F y = signbit F x).
Proof.
  intros Hx. destruct (class_cases F x) as [(Hf & Hi & Hn)|[(Hf & Hi & Hn)|(Hf & Hi & Hn)]].
  - destruct (iszero F x) eqn:Hz.
    + set (s := (if signbit F x then [45] else []) ++ [48; 120; 48; 112; 43; 48]).
      exists s. split.
      { unfold fmt_any_hex. rewrite is_sign_negative_eq, is_nan_eq, is_infinite_eq by exact Hx. rewrite Hn, Hi.
        assert (Q : feq F x ZERO = true).
        { apply feq_spec. pose proof (zero_fields F false) as (Z1 & Z2 & Z3). change (zero F false) with ZERO in *.
          assert (Fz : finite F ZERO = true) by (now apply iszero_finite).
          split; [exact Hn|]. split; [now apply finite_not_nan|]. rewrite Hf. split; [exact Fz|]. rewrite !iszero_val by assumption. reflexivity. }
        rewrite Q. reflexivity. }
      rewrite Hn. split; [intros _|discriminate].
      apply (lit_exact F s (signbit F x) 0 0 0 false r x); try assumption; try reflexivity.
      * exists (if signbit F x then [45] else []), 120, [48; 112; 43; 48]. split; [reflexivity|].
        split; [destruct (signbit F x); constructor|]. split; [now left|].
        exists [48], [0], [], [], 112, [43], [48], [0]. split; [reflexivity|]. split; [constructor; [unfold hexdig; lia|constructor]|].
        split; [constructor|]. split; [discriminate|]. split; [now left|]. split; [constructor|]. split; [constructor; [unfold decdig; lia|constructor]|].
        split; [discriminate|]. repeat split.
      * unfold s. destruct (signbit F x); reflexivity.
      * unfold hex_mag. rewrite Rmult_0_l. unfold iszero in Hz. rewrite andb_true_iff, !Z.eqb_eq in Hz. destruct Hz as [-> ->]. unfold mag_of. cbn [Z.eqb]. ring.
    + destruct (fmt_finite F x Hx Hf Hz) as (s & N & k & D & ng & E & Hl & Hm & HD & L). exists s. split; [exact E|].
      rewrite Hn. split; [intros _|discriminate]. now apply (lit_exact F s (signbit F x) N k D ng r x).
  - exists ((if signbit F x then [45] else []) ++ [105; 110; 102]). split.
    { unfold fmt_any_hex. rewrite is_sign_negative_eq, is_nan_eq, is_infinite_eq by exact Hx. now rewrite Hn, Hi. }
    rewrite Hn. split; [intros _|discriminate]. rewrite (parse_inf F _ (signbit F x)).
    + do 3 f_equal. symmetry. unfold isinf in Hi. rewrite andb_true_iff, !Z.eqb_eq in Hi. destruct Hi as [I1 I2].
      unfold infinity. rewrite (fields_split F x Hx) at 1. now rewrite I1, I2.
    + exists (if signbit F x then [45] else []), 105, 110, 102. split; [reflexivity|]. split; [destruct (signbit F x); constructor|]. unfold same_letter. lia.
  - exists ((if signbit F x then [45] else []) ++ [78; 97; 78]). split.
    { unfold fmt_any_hex. rewrite is_sign_negative_eq, is_nan_eq by exact Hx. now rewrite Hn. }
    rewrite Hn. split; [discriminate|intros _]. apply parse_nan.
    exists (if signbit F x then [45] else []), 78, 97, 78. split; [reflexivity|]. split; [destruct (signbit F x); constructor|]. unfold same_letter. lia.
Qed.
