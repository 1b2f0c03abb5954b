(** fmod: proofs. *)
From Coq Require Import ZArith Reals Lia Lra Bool Psatz.
From Flocq Require Import Core Binary.
From Verif Require Import Base Spec SpecFun Format P_format Ieee P_ieee P_real M_basic P_round P_round2 P_minmax
  P_key M_bits P_bits M_fmod.
Open Scope Z_scope.

(** ** Magnitudes as integers (multiples of the smallest subnormal) *)
Definition magi_of (F : fmt) (e m : Z) : Z := if e =? 0 then m else (2 ^ mw F + m) * 2 ^ (e - 1).
Definition magi (F : fmt) (x : Z) : Z := magi_of F (expf F x) (sigf F x).
Lemma mag_magi F e m : 0 <= e -> mag_of F e m = (IZR (magi_of F e m) * bpow radix2 (emin F))%R.
Proof.
  intros He. unfold mag_of, magi_of, emin. destruct (Z.eqb_spec e 0); [reflexivity|].
  rewrite mult_IZR, IZR_pow2 by lia. rewrite Rmult_assoc, <- bpow_plus. do 2 f_equal. lia.
Qed.
Lemma val_magi F x : val F x = (IZR (sgz (signbit F x) (magi F x)) * bpow radix2 (emin F))%R.
Proof.
  unfold val, magi. rewrite mag_magi by apply fields_range. unfold sgz. destruct (signbit F x); cbn [sval]; [|reflexivity].
  rewrite opp_IZR. ring.
Qed.
Lemma magi_pos F x : iszero F x = false -> 0 < magi F x.
Proof.
  intros H. unfold magi, magi_of. pose proof (fields_range F x). pose proof (pow_mw_ge F).
  unfold iszero in H. destruct (Z.eqb_spec (expf F x) 0).
  - cbn [andb] in H. apply Z.eqb_neq in H. lia.
  - assert (0 < 2 ^ (expf F x - 1)) by (apply pow2_pos; lia). nia.
Qed.
Lemma magi_zero F x : iszero F x = true -> magi F x = 0.
Proof.
  intros H. unfold iszero in H. apply andb_prop in H as [A B]. apply Z.eqb_eq in B.
  unfold magi, magi_of. now rewrite A.
Qed.

(** [R] is [ix * 2^(ex-1)], where [ex] may be negative. *)
Definition scaled (ix ex R : Z) : Prop := (0 < ex -> R = ix * 2 ^ (ex - 1)) /\ (ex <= 0 -> ix = R * 2 ^ (1 - ex)).
Lemma scaled_iff ix ex R K : 0 <= K -> 0 <= ex - 1 + K -> (scaled ix ex R <-> R * 2 ^ K = ix * 2 ^ (ex - 1 + K)).
Proof.
  intros HK HE. unfold scaled. pose proof (pow2_pos K HK) as PK. destruct (Z.lt_ge_cases 0 ex) as [P|P].
  - replace (ex - 1 + K) with ((ex - 1) + K) by lia. rewrite (pow2_split (ex - 1) K) by lia. split.
    + intros [A _]. rewrite A by lia. ring.
    + intros E. split; [intros _; nia|lia].
  - replace K with ((1 - ex) + (ex - 1 + K)) at 1 by lia. rewrite (pow2_split (1 - ex)) by lia.
    pose proof (pow2_pos (ex - 1 + K) HE). split.
    + intros [_ A]. rewrite A by lia. ring.
    + intros E. split; [lia|]. intros _. nia.
Qed.

(** ** Normalisation *)
Lemma log2_bounds a : 0 < a -> 2 ^ Z.log2 a <= a < 2 ^ (Z.log2 a + 1).
Proof. intros H. pose proof (Z.log2_spec a H). rewrite <- Z.add_1_r in H0. assumption. Qed.

Definition normal (F : fmt) (ix : Z) : Prop := 2 ^ mw F <= ix < 2 * 2 ^ mw F.

Lemma shl_sub F x k : isbits F x -> 0 < sigf F x -> expf F x = 0 -> 0 < k <= mw F -> sigf F x * 2 ^ k < 2 * 2 ^ mw F ->
  ushl (width F) x k = Some (sigf F x * 2 ^ k).
Proof.
  intros Hx H0 E0 Hk Hb. pose proof (fmt_facts F) as HF. pose proof (pow_mw_ge F).
  rewrite ushl_ok by (unfold width; lia). f_equal.
  rewrite (fields_split F x Hx) at 1. rewrite E0. unfold mkbits. rewrite Z.mul_0_l, Z.add_0_r.
  symmetry. apply Z.mod_unique with (if signbit F x then 2 ^ (k - 1) else 0).
  - left. split; [pose proof (pow2_pos k); nia|]. rewrite pow_width. pose proof (pow_ew1_le F). rewrite pow_ew. nia.
  - destruct (signbit F x); [|ring].
    rewrite pow_width, <- pow_mwew.
    assert (E : 2 ^ k = 2 * 2 ^ (k - 1)) by (rewrite <- Z.pow_succ_r by lia; f_equal; lia).
    rewrite E. ring.
Qed.

(** what the two normalisation blocks establish *)
Definition norm_post (F : fmt) (x ix ex : Z) : Prop :=
  normal F ix /\ 1 - mw F <= ex <= Z.max 0 (expf F x) /\ scaled ix ex (magi F x).
Lemma norm_sub_post F x k : 0 < sigf F x -> expf F x = 0 -> k = Z.log2 (sigf F x) ->
  norm_post F x (sigf F x * 2 ^ (mw F - k)) (k + 1 - mw F) /\ 0 <= k < mw F.
Proof.
  intros H0 E0 Ek. pose proof (fmt_facts F) as HF. pose proof (fields_range F x) as Hr. subst k.
  set (k := Z.log2 (sigf F x)).
  pose proof (log2_bounds _ H0) as L. fold k in L.
  assert (K0 : 0 <= k) by apply Z.log2_nonneg.
  assert (K1 : k < mw F).
  { apply Z.log2_lt_pow2; lia. }
  assert (P : 2 ^ mw F = 2 ^ k * 2 ^ (mw F - k)) by (rewrite <- pow2_split by lia; f_equal; lia).
  assert (P2 : 2 * 2 ^ mw F = 2 ^ (k + 1) * 2 ^ (mw F - k)).
  { rewrite P. rewrite Z.pow_add_r by lia. ring. }
  pose proof (pow2_pos (mw F - k)).
  split; [|lia]. split; [split; nia|]. split; [lia|].
  unfold scaled, magi, magi_of. rewrite E0. cbn [Z.eqb]. split; intros; [lia|]. do 2 f_equal. lia.
Qed.
Lemma norm_normal F x : isbits F x -> expf F x <> 0 ->
  Z.lor (Z.land x (2 ^ mw F * 2 - 1)) (2 ^ mw F) = 2 ^ mw F + sigf F x /\
  norm_post F x (2 ^ mw F + sigf F x) (expf F x).
Proof.
  intros Hx E0. pose proof (fmt_facts F) as HF. pose proof (fields_range F x) as Hr. pose proof (pow_mw_ge F).
  split.
  - replace (2 ^ mw F * 2 - 1) with (2 ^ (mw F + 1) - 1) by (rewrite Z.pow_add_r by lia; lia).
    rewrite land_pow2m1 by lia.
    assert (S : sigf F x = (x mod 2 ^ (mw F + 1)) mod 2 ^ mw F).
    { unfold sigf. rewrite Z.pow_add_r by lia. change (2 ^ 1) with 2.
      rewrite Z.rem_mul_r by lia. rewrite Z.mul_comm, Z.mod_add by lia. now rewrite Z.mod_mod by lia. }
    assert (E2 : 2 ^ (mw F + 1) = 2 * 2 ^ mw F) by (rewrite Z.pow_add_r by lia; lia).
    pose proof (Z.mod_pos_bound x (2 ^ (mw F + 1)) ltac:(lia)) as B.
    set (a := x mod 2 ^ (mw F + 1)) in *.
    pose proof (Z.div_mod a (2 ^ mw F) ltac:(lia)) as D. rewrite <- S in D.
    assert (Q : a / 2 ^ mw F = 0 \/ a / 2 ^ mw F = 1).
    { assert (0 <= a / 2 ^ mw F < 2); [|lia]. split; [apply Z.div_pos; lia|apply Z.div_lt_upper_bound; lia]. }
    destruct Q as [Q|Q]; rewrite Q in D.
    + replace a with (sigf F x) by lia. rewrite Z.lor_comm. rewrite <- (Z.mul_1_l (2 ^ mw F)) at 1.
      rewrite lor_disjoint by lia. lia.
    + replace a with (Z.lor (1 * 2 ^ mw F) (sigf F x)) by (rewrite lor_disjoint; lia).
      rewrite Z.lor_comm, Z.lor_assoc, Z.mul_1_l, Z.lor_diag. rewrite <- (Z.mul_1_l (2 ^ mw F)) at 1.
      rewrite lor_disjoint by lia. lia.
  - split; [split; lia|]. split; [lia|]. unfold scaled, magi, magi_of.
    rewrite (proj2 (Z.eqb_neq _ _) E0). split; intros; lia.
Qed.

Lemma lz_sig F x : 0 < sigf F x -> lzcnt (width F) (sigf F x * 2 ^ (ew F + 1)) = mw F - 1 - Z.log2 (sigf F x).
Proof.
  intros H0. pose proof (fmt_facts F) as HF. pose proof (log2_bounds _ H0) as L.
  pose proof (pow2_pos (ew F + 1)). pose proof (Z.log2_nonneg (sigf F x)).
  set (k := Z.log2 (sigf F x)) in *.
  assert (E1 : 2 ^ (k + ew F + 1) = 2 ^ k * 2 ^ (ew F + 1)) by (rewrite <- pow2_split by lia; f_equal; lia).
  assert (E2 : 2 ^ (k + ew F + 1 + 1) = 2 ^ (k + 1) * 2 ^ (ew F + 1)) by (rewrite <- pow2_split by lia; f_equal; lia).
  rewrite (lzcnt_spec _ _ (k + ew F + 1)) by nia. unfold width. lia.
Qed.

Lemma fmod_norm_ok F x : isbits F x -> iszero F x = false ->
  exists ix ex, fmod_norm F x (expf F x) = Some (ix, ex) /\ norm_post F x ix ex.
Proof.
  intros Hx Hz. pose proof (fmt_facts F) as HF. pose proof (fields_range F x) as Hr. pose proof (pow_mw_ge F) as Hm.
  unfold fmod_norm. rewrite EXP_BITS_eq. change (BITS F) with (width F).
  destruct (Z.eqb_spec (expf F x) 0) as [E0|E0].
  - rewrite E0. assert (S0 : 0 < sigf F x).
    { unfold iszero in Hz. rewrite E0 in Hz. cbn [Z.eqb andb] in Hz. apply Z.eqb_neq in Hz. lia. }
    rewrite shl_sig by assumption. cbn [bind]. rewrite lz_sig by assumption.
    set (k := Z.log2 (sigf F x)). destruct (norm_sub_post F x k S0 E0 eq_refl) as (N & K).
    rewrite to_i32_small by lia. unfold ssub. rewrite chk32 by lia. cbn [bind].
    unfold sneg. rewrite chk32 by lia. cbn [bind]. unfold sadd. rewrite chk32 by lia. cbn [bind].
    replace (- (0 - (mw F - 1 - k)) + 1) with (mw F - k) by lia.
    rewrite shl_sub; try assumption; try lia.
    + cbn [bind]. eexists _, _; split; [reflexivity|].
      replace (0 - (mw F - 1 - k)) with (k + 1 - mw F) by lia. exact N.
    + destruct N as [[_ N] _]. exact N.
  - destruct (norm_normal F x Hx E0) as [A B].
    assert (M : ushr (width F) (INT_MAX F) (ew F) = Some (2 ^ mw F * 2 - 1)).
    { unfold INT_MAX. change (BITS F) with (width F). rewrite ushr_ok by (unfold width; lia). f_equal.
      symmetry. apply Z.div_unique with (2 ^ ew F - 1); [left; pose proof (pow2_pos (ew F)); lia|].
      rewrite pow_width. ring. }
    rewrite M. cbn [bind]. rewrite ushl_ok by (unfold width, SIG_BITS; lia). cbn [bind].
    unfold SIG_BITS. rewrite Z.mul_1_l. rewrite Z.mod_small.
    + rewrite A. eexists _, _; split; [reflexivity|exact B].
    + rewrite pow_width. pose proof (pow_ew1_le F). rewrite pow_ew. nia.
Qed.

(** ** One subtraction step *)
Lemma sub_step F ix iy : normal F iy -> 0 <= ix < 2 * iy ->
  exists t, ushr (width F) (wsub (width F) ix iy) (width F - 1) = Some t /\
   ((t = 0 /\ iy <= ix /\ wsub (width F) ix iy = ix - iy) \/ (t <> 0 /\ ix < iy)).
Proof.
  intros [N1 N2] H. pose proof (fmt_facts F) as HF. pose proof (pow_mw_ge F) as Hm.
  assert (PW : 2 ^ width F = 2 * 2 ^ (width F - 1)).
  { rewrite <- Z.pow_succ_r by (unfold width; lia). f_equal; lia. }
  assert (B : 4 * 2 ^ mw F <= 2 ^ (width F - 1)).
  { rewrite pow_width1. pose proof (pow_ew1_le F). rewrite pow_ew. nia. }
  rewrite ushr_ok by (unfold width; lia). eexists; split; [reflexivity|].
  unfold wsub. destruct (Z.le_gt_cases iy ix) as [L|L].
  - left. rewrite Z.mod_small by lia. split; [|lia]. apply Z.div_small. lia.
  - right. split; [|lia].
    assert (E : (ix - iy) mod 2 ^ width F = ix - iy + 2 ^ width F).
    { symmetry. apply Z.mod_unique with (-1); [left|]; lia. }
    rewrite E. intros C. apply Z.div_small_iff in C; lia.
Qed.

Lemma dbl F ix : 0 <= ix < 2 * 2 ^ mw F -> ushl (width F) ix 1 = Some (2 * ix).
Proof.
  intros H. pose proof (fmt_facts F) as HF. pose proof (pow_mw_ge F) as Hm.
  rewrite ushl_ok by (unfold width; lia). f_equal. change (2 ^ 1) with 2.
  rewrite Z.mod_small; [lia|]. rewrite pow_width. pose proof (pow_ew1_le F). rewrite pow_ew. nia.
Qed.

Lemma fmod_loop_ok F iy ey ix0 ex0 : normal F iy -> normal F ix0 -> 1 - mw F <= ey <= ex0 -> ex0 < 2 ^ ew F ->
  exists o, run (fmod_fuel F) (fmod_step F iy ey) (ix0, ex0) = Some o /\
   match o with
   | None => (ix0 * 2 ^ (ex0 - ey)) mod iy = 0
   | Some (ix, ex) => ex = ey /\ 0 < ix < 2 * iy /\ (ix0 * 2 ^ (ex0 - ey)) mod iy = ix mod iy
   end.
Proof.
  intros Ny Nx Hey Hex. pose proof (fmt_facts F) as HF. pose proof (pow_mw_ge F) as Hm. pose proof (bias_facts F) as HB.
  assert (Y0 : 0 < iy) by (unfold normal in Ny; lia).
  pose (I := fun s : Z * Z => let '(ix, ex) := s in
     ey <= ex <= ex0 /\ 0 < ix < 2 * iy /\ (ix0 * 2 ^ (ex0 - ey)) mod iy = (ix * 2 ^ (ex - ey)) mod iy).
  destruct (run_rule I (fun s => snd s - ey)
     (fun o => match o with
       | None => (ix0 * 2 ^ (ex0 - ey)) mod iy = 0
       | Some (ix, ex) => ex = ey /\ 0 < ix < 2 * iy /\ (ix0 * 2 ^ (ex0 - ey)) mod iy = ix mod iy
       end) (fmod_step F iy ey)) with (p := fmod_fuel F) (s := (ix0, ex0)) as (o & E & Ho).
  - intros [ix ex] (I1 & I2 & I3). unfold fmod_step. change (BITS F) with (width F).
    destruct (Z.ltb_spec ey ex) as [L|L].
    + destruct (sub_step F ix iy Ny ltac:(lia)) as (t & -> & Ht). cbn [bind].
      assert (PE : 2 ^ (ex - ey) = 2 * 2 ^ (ex - 1 - ey)).
      { rewrite <- Z.pow_succ_r by lia. f_equal; lia. }
      destruct Ht as [(-> & Hle & Ew)|(Ht & Hlt)].
      * rewrite Ew. cbn [Z.eqb andb]. destruct (Z.eqb_spec (ix - iy) 0) as [D|D].
        { eexists; split; [reflexivity|]. cbv beta iota. rewrite I3. replace ix with iy by lia.
          rewrite Z.mul_comm. apply Z.mod_mul. lia. }
        unfold normal in Ny. rewrite dbl by lia. cbn [bind]. unfold ssub. rewrite chk32 by lia. cbn [bind].
        eexists; split; [reflexivity|]. cbv beta iota. split; [|cbn [snd]; lia].
        split; [lia|]. split; [lia|]. rewrite I3, PE.
        replace (2 * (ix - iy) * 2 ^ (ex - 1 - ey)) with (ix * (2 * 2 ^ (ex - 1 - ey)) + (- (2 * 2 ^ (ex - 1 - ey))) * iy) by ring.
        now rewrite Z.mod_add by lia.
      * rewrite (proj2 (Z.eqb_neq t 0) Ht). cbn [andb].
        unfold normal in Ny. rewrite dbl by lia. cbn [bind]. unfold ssub. rewrite chk32 by lia. cbn [bind].
        eexists; split; [reflexivity|]. cbv beta iota. split; [|cbn [snd]; lia].
        split; [lia|]. split; [lia|]. rewrite I3, PE. f_equal. ring.
    + eexists; split; [reflexivity|]. cbv beta iota. assert (ex = ey) by lia. subst ex.
      split; [reflexivity|]. split; [assumption|]. rewrite I3, Z.sub_diag. f_equal. lia.
  - split; [lia|]. split; [unfold normal in *; lia|reflexivity].
  - cbn [snd]. unfold fmod_fuel. rewrite Z2Pos.id; change (BITS F) with (width F); unfold width; pose proof (pow2_pos (ew F)); lia.
  - exists o. split; assumption.
Qed.

(** ** Rescaling *)
Lemma shl_normal F ix : 0 < ix < 2 * 2 ^ mw F ->
  Z.max 0 (lzcnt (width F) ix - ew F) = mw F - Z.log2 ix /\ 0 <= Z.log2 ix <= mw F /\
  ushl (width F) ix (mw F - Z.log2 ix) = Some (ix * 2 ^ (mw F - Z.log2 ix)) /\
  normal F (ix * 2 ^ (mw F - Z.log2 ix)).
Proof.
  intros H. pose proof (fmt_facts F) as HF. pose proof (log2_bounds ix ltac:(lia)) as L.
  pose proof (Z.log2_nonneg ix) as K0. set (k := Z.log2 ix) in *.
  assert (K1 : k <= mw F).
  { apply Z.lt_succ_r. apply Z.log2_lt_pow2; [lia|]. rewrite Z.pow_succ_r by lia. lia. }
  rewrite (lzcnt_spec _ _ k) by lia.
  assert (P : 2 ^ mw F = 2 ^ k * 2 ^ (mw F - k)) by (rewrite <- pow2_split by lia; f_equal; lia).
  assert (P2 : 2 * 2 ^ mw F = 2 ^ (k + 1) * 2 ^ (mw F - k)).
  { rewrite P. rewrite Z.pow_add_r by lia. ring. }
  pose proof (pow2_pos (mw F - k)).
  assert (N : normal F (ix * 2 ^ (mw F - k))) by (split; nia).
  split; [unfold width; lia|]. split; [lia|]. split; [|exact N].
  rewrite ushl_ok by (unfold width; lia). f_equal. apply Z.mod_small. destruct N as [N1 N2].
  pose proof (pow_mw_ge F). split; [lia|]. rewrite pow_width. pose proof (pow_ew1_le F). rewrite pow_ew. nia.
Qed.
Lemma scaled_shift ix ex R s : 0 <= s -> scaled ix ex R -> scaled (ix * 2 ^ s) (ex - s) R.
Proof.
  intros Hs H. set (K := Z.max 0 (1 - ex) + s).
  apply (scaled_iff _ _ _ K); [lia|lia|]. apply (scaled_iff ix ex R K) in H; [|lia|lia].
  rewrite H. rewrite <- Z.mul_assoc, <- pow2_split by lia. do 2 f_equal. lia.
Qed.
(** the packed result: a pattern of magnitude [R] *)
Lemma scale_ok F ix ex R : normal F ix -> scaled ix ex R -> 0 < R -> ex < 2 ^ ew F - 1 ->
  exists u, (if 0 <? ex then
           let* ix := usub (width F) ix (2 ^ mw F) in
           let* e := ucast (width F) ex in
           let* es := ushl (width F) e (mw F) in
           Some (Z.lor ix es)
         else
           let* ne := sneg 32 ex in
           let* k := sadd 32 ne 1 in
           ushr (width F) ix k) = Some u /\
    0 <= u < (2 ^ ew F - 1) * 2 ^ mw F /\ magi_of F (u / 2 ^ mw F) (u mod 2 ^ mw F) = R /\
    (ex <= 0 -> 1 - ex <= mw F).
Proof.
  intros [N1 N2] [S1 S2] HR Hex. pose proof (fmt_facts F) as HF. pose proof (pow_mw_ge F) as Hm. pose proof (bias_facts F) as HB.
  destruct (Z.ltb_spec 0 ex) as [L|L].
  - rewrite usub_ok by lia. cbn [bind]. rewrite ucast_ok by (rewrite pow_width; nia). cbn [bind].
    rewrite ushl_ok by (unfold width; lia). cbn [bind]. rewrite Z.mod_small by (rewrite pow_width; nia).
    rewrite Z.lor_comm, lor_disjoint by lia. eexists; split; [reflexivity|]. split; [nia|]. split; [|lia].
    replace (ex * 2 ^ mw F + (ix - 2 ^ mw F)) with ((ix - 2 ^ mw F) + ex * 2 ^ mw F) by ring.
    rewrite Z.div_add, Z.mod_add by lia. rewrite Z.div_small, Z.mod_small by lia.
    unfold magi_of. rewrite Z.add_0_l. rewrite (proj2 (Z.eqb_neq _ _)) by lia. rewrite S1 by lia. f_equal. lia.
  - assert (Hk : 1 - ex <= mw F).
    { apply Z.nlt_ge. intros C. specialize (S2 L).
      assert (2 ^ (mw F + 1) <= 2 ^ (1 - ex)) by (apply Z.pow_le_mono_r; lia).
      rewrite Z.pow_add_r in H by lia. change (2 ^ 1) with 2 in H. nia. }
    unfold sneg. rewrite chk32 by lia. cbn [bind]. unfold sadd. rewrite chk32 by lia. cbn [bind].
    rewrite ushr_ok by (unfold width; lia). specialize (S2 L).
    replace (- ex + 1) with (1 - ex) by lia. pose proof (pow2_pos (1 - ex) ltac:(lia)) as P1.
    eexists; split; [reflexivity|]. rewrite S2. rewrite Z.div_mul by lia.
    assert (R < 2 ^ mw F).
    { assert (2 <= 2 ^ (1 - ex)) by (change 2 with (2 ^ 1) at 1; apply Z.pow_le_mono_r; lia). nia. }
    split; [nia|]. split; [|lia]. rewrite Z.div_small, Z.mod_small by lia. reflexivity.
Qed.

(** ** The special cases *)
Lemma fdiv_self_nan F t : isbits F t -> isnan F t = true \/ isinf F t = true \/ iszero F t = true ->
  isnan F (fdiv F t t) = true.
Proof.
  intros Ht H. destruct (isnan F t) eqn:En.
  - apply fdiv_nan. now rewrite En.
  - unfold fdiv. destruct H as [H|[H|H]]; [discriminate| |].
    + rewrite (dec_isinf F t H). rewrite nan_enc. reflexivity.
    + rewrite (dec_iszero F t H). rewrite nan_enc. reflexivity.
Qed.
Lemma fmul_zero_val F x y : isbits F x -> isbits F y -> finite F x = true -> finite F y = true ->
  iszero F x = true \/ iszero F y = true ->
  fmul F x y = zero F (xorb (signbit F x) (signbit F y)).
Proof.
  intros Bx By Fx Fy H. pose proof (fmul_spec F x y Fx Fy) as S.
  assert (V : (val F x * val F y = 0)%R) by (destruct H as [H|H]; rewrite (iszero_val F _ H); ring).
  rewrite V in S. destruct S as [Hb S]. rewrite rnd_0, Rabs_R0 in S.
  rewrite Rlt_bool_true in S by apply bpow_gt_0. destruct S as (S1 & S2 & S3).
  rewrite Rcompare_Eq in S3 by reflexivity.
  rewrite (iszero_eq F (fmul F x y)); [now rewrite S3|apply fmul_isbits|]. apply val_eq_0; assumption.
Qed.
Lemma prod_div_nan F x y : isbits F x -> isbits F y ->
  isnan F x = true \/ isnan F y = true \/ isinf F x = true \/ iszero F y = true ->
  isnan F (fdiv F (fmul F x y) (fmul F x y)) = true.
Proof.
  intros Bx By H. apply fdiv_self_nan; [apply fmul_isbits|].
  destruct (isnan F x) eqn:Nx; [left; apply fmul_nan; now rewrite Nx|].
  destruct (isnan F y) eqn:Ny; [left; apply fmul_nan; now rewrite Ny, orb_true_r|].
  destruct H as [H|[H|[H|H]]]; try discriminate.
  - destruct (iszero F y) eqn:Zy.
    + left. unfold fmul. rewrite (dec_isinf F x H), (dec_iszero F y Zy). rewrite nan_enc. reflexivity.
    + right; left. rewrite fmul_inf_l by assumption. apply infinity_fields.
  - destruct (isinf F x) eqn:Ix.
    + left. unfold fmul. rewrite (dec_isinf F x Ix), (dec_iszero F y H). rewrite nan_enc. reflexivity.
    + right; right. assert (Fx : finite F x = true).
      { destruct (class_cases F x) as [C|[C|C]]; intuition congruence. }
      rewrite fmul_zero_val; try assumption; [|now apply iszero_finite|now right]. apply zero_fields.
Qed.

Lemma shl1 F x : isbits F x -> ushl (width F) x 1 = Some (2 * magz F x).
Proof.
  intros Hx. pose proof (fmt_facts F). pose proof (magz_range F x). rewrite ushl_ok by (unfold width; lia). f_equal.
  change (2 ^ 1) with 2. rewrite (bits_magz F x Hx) at 1. symmetry.
  apply Z.mod_unique with (if signbit F x then 1 else 0).
  - left. rewrite pow_width. lia.
  - rewrite pow_width, pow_mwew. destruct (signbit F x); ring.
Qed.
Lemma magz_magi_lt F x y : magz F x < magz F y <-> magi F x < magi F y.
Proof.
  rewrite magz_lt_val. unfold magi. rewrite !mag_magi by apply fields_range.
  pose proof (bpow_gt_0 radix2 (emin F)) as P. split; intros H.
  - apply lt_IZR. eapply Rmult_lt_reg_r; eassumption.
  - apply Rmult_lt_compat_r; [assumption|]. now apply IZR_lt.
Qed.
Lemma magz_magi_eq F x y : magz F x = magz F y <-> magi F x = magi F y.
Proof. pose proof (magz_magi_lt F x y). pose proof (magz_magi_lt F y x). lia. Qed.

(** ** The real-number reading of the integer remainder *)
Section Quot.
Context (X Y : Z) (sx sy : bool) (u : R) (HX : 0 <= X) (HY : 0 < Y) (Hu : (0 < u)%R).
Lemma quot_ratio : (IZR (sgz sx X) * u / (IZR (sgz sy Y) * u) = sval (xorb sx sy) (IZR X / IZR Y))%R.
Proof.
  assert (0 < IZR Y)%R by (now apply IZR_lt).
  destruct sx, sy; cbn [sgz xorb sval]; rewrite ?opp_IZR; field; lra.
Qed.
Lemma quot_trunc : Ztrunc (IZR (sgz sx X) * u / (IZR (sgz sy Y) * u))%R = sgz (xorb sx sy) (X / Y).
Proof.
  rewrite quot_ratio, Ztrunc_sval. f_equal.
  assert (0 < IZR Y)%R by (now apply IZR_lt). assert (0 <= IZR X)%R by (now apply IZR_le).
  rewrite Ztrunc_floor by (apply Rmult_le_pos; [assumption|left; now apply Rinv_0_lt_compat]).
  apply Zfloor_div. lia.
Qed.
Lemma quot_rem n : (IZR (sgz sx X) * u - IZR (sgz (xorb sx sy) n) * (IZR (sgz sy Y) * u) = IZR (sgz sx (X - n * Y)) * u)%R.
Proof.
  destruct sx, sy; cbn [sgz xorb]; rewrite ?opp_IZR, ?minus_IZR, ?mult_IZR; ring.
Qed.
End Quot.
Lemma fmod_val F x y r : isbits F x -> isbits F y -> finite F x = true -> finite F y = true -> iszero F y = false ->
  isbits F r -> finite F r = true -> signbit F r = signbit F x -> magi F r = magi F x mod magi F y ->
  rem_spec F Ztrunc x y r.
Proof.
  intros Bx By Fx Fy Zy Br Fr Sr Mr. split; [assumption|].
  assert (Yp : 0 < magi F y) by now apply magi_pos.
  assert (Xp : 0 <= magi F x).
  { destruct (iszero F x) eqn:E; [rewrite magi_zero by assumption; lia|]. pose proof (magi_pos F x E). lia. }
  split; [|split].
  - intros _ _ _. split; [assumption|]. split; [|intros; assumption].
    rewrite !val_magi. rewrite quot_trunc by (try assumption; apply bpow_gt_0). rewrite quot_rem.
    rewrite Sr, Mr. do 3 f_equal. rewrite Z.mod_eq by lia. ring.
  - intros _ I. rewrite (finite_not_inf F y Fy) in I. discriminate.
  - rewrite (finite_not_nan F x Fx), (finite_not_nan F y Fy), (finite_not_inf F x Fx), Zy. intuition discriminate.
Qed.

Lemma finite_lt_sat F x : finite F x = true -> expf F x < 2 ^ ew F - 1.
Proof. apply finite_iff. Qed.
Lemma mag_sign F (s : bool) u : 0 <= u < (2 ^ ew F - 1) * 2 ^ mw F ->
  let r := Z.lor u (zero F s) in
  isbits F r /\ signbit F r = s /\ finite F r = true /\ magi F r = magi_of F (u / 2 ^ mw F) (u mod 2 ^ mw F).
Proof.
  intros Hu. pose proof (pow_mw_ge F). pose proof (fmt_facts F). pose proof (bias_facts F).
  assert (E : Z.lor u (zero F s) = (if s then 2 ^ (mw F + ew F) else 0) + u).
  { unfold zero, mkbits. rewrite Z.mul_0_l, !Z.add_0_r. destruct s.
    - rewrite Z.lor_comm. rewrite <- (Z.mul_1_l (2 ^ (mw F + ew F))). apply lor_disjoint; [lia|]. rewrite pow_mwew. nia.
    - now rewrite Z.lor_0_r. }
  cbv zeta. rewrite E.
  destruct (magz_fields F s u) as (A & B & C & D & G); [nia|].
  split; [assumption|]. split; [assumption|]. split.
  - apply finite_magz. lia.
  - unfold magi. now rewrite D, G.
Qed.

Lemma fmod_mod ix iy ex ey X Y K : 0 <= K -> 0 <= ey - 1 + K -> ey <= ex -> 0 < iy -> 0 < Y ->
  X * 2 ^ K = ix * 2 ^ (ex - 1 + K) -> Y * 2 ^ K = iy * 2 ^ (ey - 1 + K) ->
  (X mod Y) * 2 ^ K = ((ix * 2 ^ (ex - ey)) mod iy) * 2 ^ (ey - 1 + K).
Proof.
  intros HK H1 H2 H3 H4 HX HY. pose proof (pow2_pos K HK). pose proof (pow2_pos _ H1).
  rewrite <- !Z.mul_mod_distr_r by lia. rewrite HX, HY. f_equal.
  rewrite <- Z.mul_assoc, <- pow2_split by lia. do 2 f_equal. lia.
Qed.

Lemma lt_scale a b M P Q : 0 < M -> 0 < P -> a < 2 * M -> M <= b -> 2 * P <= Q -> a * P < b * Q.
Proof. intros. nia. Qed.
Lemma pos_of_mul a p b q : 0 < p -> 0 < b -> 0 < q -> a * p = b * q -> 0 < a.
Proof. intros. nia. Qed.
Lemma pow_mw_width F : 0 <= 2 ^ mw F < 2 ^ width F.
Proof. rewrite pow_width. pose proof (pow_mw_ge F). pose proof (pow_ew1_le F). rewrite pow_ew. nia. Qed.

Theorem fmod_ok F x y : isbits F x -> isbits F y -> exists r, fmod F x y = Some r /\ rem_spec F Ztrunc x y r.
Proof.
  intros Bx By. pose proof (fmt_facts F) as HF. pose proof (bias_facts F) as HB. pose proof (pow_mw_ge F) as Hm.
  pose proof (fields_range F x) as Rx. pose proof (fields_range F y) as Ry.
  unfold fmod. rewrite !ex_ok by assumption. cbn [bind]. change (BITS F) with (width F).
  rewrite !to_i32_small by lia. rewrite shl1 by assumption. cbn [bind].
  rewrite is_nan_eq by assumption. rewrite EXP_SAT_eq. rewrite to_i32_small by lia.
  destruct ((2 * magz F y =? 0) || isnan F y || (expf F x =? 2 ^ ew F - 1)) eqn:G.
  { eexists; split; [reflexivity|].
    assert (H : isnan F x = true \/ isnan F y = true \/ isinf F x = true \/ iszero F y = true).
    { apply orb_prop in G as [G|G]; [apply orb_prop in G as [G|G]|].
      - right; right; right. apply zero_magz. apply Z.eqb_eq in G. lia.
      - now right; left.
      - unfold isnan, isinf. rewrite G. destruct (sigf F x =? 0); cbn; tauto. }
    split; [apply fdiv_isbits|]. split; [|split].
    - intros Fx Fy Zy. rewrite (finite_not_nan F x Fx), (finite_not_nan F y Fy), (finite_not_inf F x Fx), Zy in H.
      intuition discriminate.
    - intros Fx Iy. rewrite (finite_not_nan F x Fx), (finite_not_inf F x Fx) in H.
      unfold isinf in Iy. apply andb_prop in Iy as [I1 I2]. unfold isnan, iszero in H. rewrite I1, I2 in H.
      cbn [negb andb] in H. rewrite andb_true_r in H. apply Z.eqb_eq in I1. rewrite I1 in H.
      rewrite (proj2 (Z.eqb_neq _ _)) in H by lia. intuition discriminate.
    - intros _. apply prod_div_nan; assumption. }
  apply orb_false_elim in G as [G G3]. apply orb_false_elim in G as [G1 G2].
  apply Z.eqb_neq in G1, G3.
  assert (Fx : finite F x = true) by (apply finite_iff; lia).
  assert (Zy : iszero F y = false).
  { destruct (iszero F y) eqn:E; [|reflexivity]. apply zero_magz in E. lia. }
  rewrite shl1 by assumption. cbn [bind].
  destruct (isinf F y) eqn:Iy.
  { (* infinite y: |x| < |y| *)
    assert (L : magz F x < magz F y).
    { apply inf_magz in Iy. apply finite_magz in Fx. lia. }
    rewrite (proj2 (Z.leb_le _ _)), (proj2 (Z.eqb_neq _ _)) by lia.
    exists x. split; [reflexivity|]. split; [assumption|]. split; [|split].
    - intros _ Fy. rewrite (finite_not_inf F y Fy) in Iy. discriminate.
    - reflexivity.
    - rewrite (finite_not_nan F x Fx), (finite_not_inf F x Fx), G2, Zy. intuition discriminate. }
  assert (Fy : finite F y = true).
  { destruct (class_cases F y) as [C|[C|C]]; intuition congruence. }
  pose proof (magi_pos F y Zy) as Yp.
  assert (ZR : forall s, isbits F (zero F s) /\ signbit F (zero F s) = s /\ finite F (zero F s) = true /\ magi F (zero F s) = 0).
  { intros s. destruct (zero_fields F s) as (A & B & C). split; [assumption|]. split; [apply C|].
    split; [now apply iszero_finite|now apply magi_zero]. }
  assert (ZX : fmul F ZERO x = zero F (signbit F x)).
  { rewrite (ZERO_eq F). destruct (ZR false) as (A & B & C & D).
    rewrite fmul_zero_val; try assumption; [now rewrite B, xorb_false_l|]. left. apply zero_fields. }
  destruct (Z.leb_spec (2 * magz F x) (2 * magz F y)) as [L|L].
  { destruct (Z.eqb_spec (2 * magz F x) (2 * magz F y)) as [E|E].
    - exists (fmul F ZERO x). split; [reflexivity|]. rewrite ZX.
      destruct (ZR (signbit F x)) as (A & B & C & D).
      apply fmod_val; try assumption. rewrite D.
      rewrite (proj1 (magz_magi_eq F x y)) by lia. symmetry. apply Z.mod_same. lia.
    - exists x. split; [reflexivity|]. apply fmod_val; try assumption; try reflexivity.
      assert (magi F x < magi F y) by (apply magz_magi_lt; lia).
      symmetry. apply Z.mod_small. split; [|assumption].
      destruct (iszero F x) eqn:Z0; [rewrite magi_zero by assumption; lia|]. pose proof (magi_pos F x Z0). lia. }
  assert (XY : magi F y < magi F x) by (apply magz_magi_lt; lia).
  assert (Zx : iszero F x = false).
  { destruct (iszero F x) eqn:Z0; [|reflexivity]. rewrite (magi_zero F x Z0) in XY. lia. }
  destruct (fmod_norm_ok F x Bx Zx) as (ix & ex & -> & Nx & Ex & Sx). cbn [bind].
  rewrite (to_i32_small (expf F y)) by lia.
  destruct (fmod_norm_ok F y By Zy) as (iy & ey & -> & Ny & Ey & Sy). cbn [bind].
  pose proof (finite_lt_sat F x Fx) as Lx. pose proof (finite_lt_sat F y Fy) as Ly.
  apply (scaled_iff _ _ _ (mw F)) in Sx; [|lia|lia]. apply (scaled_iff _ _ _ (mw F)) in Sy; [|lia|lia].
  assert (Hee : ey <= ex).
  { apply Z.nlt_ge. intros C. destruct Nx as [Nx1 Nx2]. destruct Ny as [Ny1 Ny2].
    assert (PE : 2 * 2 ^ (ex - 1 + mw F) <= 2 ^ (ey - 1 + mw F)).
    { rewrite <- Z.pow_succ_r by lia. apply Z.pow_le_mono_r; lia. }
    pose proof (pow2_pos (ex - 1 + mw F) ltac:(lia)).
    assert (magi F x * 2 ^ mw F < magi F y * 2 ^ mw F) by (rewrite Sx, Sy; apply (lt_scale _ _ (2 ^ mw F)); lia).
    apply Z.mul_lt_mono_pos_r in H0; lia. }
  assert (Y0 : 0 < iy) by (unfold normal in Ny; lia).
  pose proof (fmod_mod ix iy ex ey _ _ (mw F) ltac:(lia) ltac:(lia) Hee Y0 Yp Sx Sy) as MM.
  pose proof (pow2_pos (ey - 1 + mw F) ltac:(lia)) as PP.
  assert (RZ : forall r0, (ix * 2 ^ (ex - ey)) mod iy = 0 -> Some (fmul F ZERO x) = Some r0 -> rem_spec F Ztrunc x y r0).
  { intros r0 E G. injection G as <-. rewrite ZX. destruct (ZR (signbit F x)) as (A & B & C & D).
    apply fmod_val; try assumption. rewrite D. rewrite E in MM. nia. }
  destruct (fmod_loop_ok F iy ey ix ex Ny Nx) as (o & -> & Ho); [lia|lia|]. cbn [bind].
  destruct o as [[ix' ex']|].
  2:{ eexists; split; [reflexivity|]. now apply RZ. }
  destruct Ho as (-> & Hi & Hmod).
  destruct (sub_step F ix' iy Ny ltac:(lia)) as (t & -> & Ht). cbn [bind].
  assert (Fin : forall i, 0 < i < iy -> (ix * 2 ^ (ex - ey)) mod iy = i ->
    exists r, (let shift := Z.max 0 (lzcnt (width F) i - EXP_BITS F) in
      let* ix := ushl (width F) i shift in
      let* ex := ssub 32 ey (to_i 32 shift) in
      let* one := ushl (width F) 1 (SIG_BITS F) in
      let* r :=
        (if 0 <? ex then
           let* ix := usub (width F) ix one in
           let* e := ucast (width F) ex in
           let* es := ushl (width F) e (SIG_BITS F) in
           Some (Z.lor ix es)
         else
           let* ne := sneg 32 ex in
           let* k := sadd 32 ne 1 in
           ushr (width F) ix k) in
      Some (Z.lor r (Z.land x (SIGN_MASK F)))) = Some r /\ rem_spec F Ztrunc x y r).
  { intros i Hip Him. rewrite Him in MM.
    assert (Sc : scaled i ey (magi F x mod magi F y)) by (apply (scaled_iff _ _ _ (mw F)); [lia|lia|exact MM]).
    cbv zeta. rewrite EXP_BITS_eq. unfold normal in Ny.
    destruct (shl_normal F i) as (-> & Hk & -> & Nn); [lia|]. cbn [bind].
    set (s := mw F - Z.log2 i) in *.
    rewrite to_i32_small by lia. unfold ssub. rewrite chk32 by lia. cbn [bind].
    unfold SIG_BITS. rewrite (ushl_ok (width F) 1) by (unfold width; lia). rewrite Z.mul_1_l.
    rewrite (Z.mod_small (2 ^ mw F)) by apply pow_mw_width. cbn [bind].
    assert (Rp : 0 < magi F x mod magi F y) by (apply (pos_of_mul _ (2 ^ mw F) i (2 ^ (ey - 1 + mw F))); lia).
    destruct (scale_ok F (i * 2 ^ s) (ey - s) (magi F x mod magi F y)) as (w & -> & W1 & W2 & W3); try assumption; [|lia|].
    { apply scaled_shift; [lia|assumption]. }
    cbn [bind]. rewrite sign_zero by assumption. eexists; split; [reflexivity|].
    destruct (mag_sign F (signbit F x) w W1) as (A & B & C & D).
    apply fmod_val; try assumption. now rewrite D. }
  destruct Ht as [(-> & Hle & Ew)|(Ht & Hlt)].
  - rewrite Ew. cbn [Z.eqb andb]. destruct (Z.eqb_spec (ix' - iy) 0) as [D|D].
    + eexists; split; [reflexivity|]. apply RZ; [|reflexivity]. rewrite Hmod. replace ix' with iy by lia. apply Z.mod_same. lia.
    + apply Fin; [lia|]. rewrite Hmod. symmetry. apply Z.mod_unique with 1; [left|]; lia.
  - rewrite (proj2 (Z.eqb_neq t 0) Ht). cbn [andb].
    apply Fin; [lia|]. rewrite Hmod. apply Z.mod_small. lia.
Qed.
