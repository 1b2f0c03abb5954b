(** Arguments outside the domain of the elementary functions. *)
From Coq Require Import ZArith Reals Lia Lra Bool List.
From Flocq Require Import Core.
From Verif Require Import Base Spec SpecElem SpecAnnexF Format P_format Ieee P_ieee P_real P_key P_neg M_scalbn M_sqrt P_scalbn M_elib
  SpecFun Prop_sqrt Prop_scale M_exp M_log M_atrig M_erf P_elem P_elem2 P_ival P_ival2 P_tot P_exp P_log P_lit P_nan P_fma4 P_round2 P_fmaf.
Open Scope Z_scope.

Ltac dfin Fx := lazymatch goal with |- exists r, Some ?t = Some r /\ _ => exists t; split; [reflexivity|split; [bitsok|rewrite (fsub_self _ _ Fx); vm_compute; reflexivity]] end.
Ltac dwalk Fx := repeat (cbv zeta beta iota; first [dfin Fx | nwalk1]).
Ltac dom64 f lem Fx := let x := fresh "x" in let B := fresh "B" in let H := fresh "H" in intros x B Fx H; unfold to_nan; unfold f;
  words64 x B; rewrite ?bs_pos, ?(shl1_64 x B); destruct (lem x B Fx H) as [?S ?R]; destruct (bits64 x B) as [?E _]; pose proof (hi_lo64 x B);
  rewrite ?S in *; try (destruct (signbit f64 x) eqn:?S); unfold bs in *; rewrite ?negb_involutive; dwalk Fx.
Ltac dom32 f lem Fx := let x := fresh "x" in let B := fresh "B" in let H := fresh "H" in intros x B Fx H; unfold to_nan; unfold f;
  words32 x B; rewrite ?bs_pos, ?(shl1_32 x B); destruct (lem x B Fx H) as [?S ?R]; destruct (bits32 x B) as [?E _];
  rewrite ?S in *; try (destruct (signbit f32 x) eqn:?S); unfold bs in *; rewrite ?negb_involutive; dwalk Fx.
Lemma logf_dom : nan_where f32 rs_logf (fun v => v < 0)%R. Proof. dom32 rs_logf neg32 Fx. Qed.
Lemma log2f_dom : nan_where f32 rs_log2f (fun v => v < 0)%R. Proof. dom32 rs_log2f neg32 Fx. Qed.
Lemma log10f_dom : nan_where f32 rs_log10f (fun v => v < 0)%R. Proof. dom32 rs_log10f neg32 Fx. Qed.
Lemma log_dom : nan_where f64 rs_log (fun v => v < 0)%R. Proof. dom64 rs_log neg64 Fx. Qed.
Lemma log2_dom : nan_where f64 rs_log2 (fun v => v < 0)%R. Proof. dom64 rs_log2 neg64 Fx. Qed.
Lemma log10_dom : nan_where f64 rs_log10 (fun v => v < 0)%R. Proof. dom64 rs_log10 neg64 Fx. Qed.
Lemma feq_lt F x y : finite F x = true -> finite F y = true -> (val F x < val F y)%R -> feq F x y = false.
Proof. intros Hx Hy H. unfold feq. rewrite fcmp_finite by assumption. now rewrite (Rcompare_Lt _ _ H). Qed.
Lemma log1pf_dom : nan_where f32 rs_log1pf (fun v => v < -1)%R.
Proof.
  intros x B Fx H. assert (Q : feq f32 x 0xbf800000 = false) by (apply feq_lt; try assumption; [reflexivity|rewrite mone32; exact H]).
  unfold to_nan, rs_log1pf. rewrite Q. words32 x B. rewrite ?bs_pos, ?(shl1_32 x B). destruct (below_m1_32 x B Fx H) as [S R]. destruct (bits32 x B) as [E _].
  rewrite S in *. unfold bs in *. dwalk Fx.
Qed.
Lemma log1p_dom : nan_where f64 rs_log1p (fun v => v < -1)%R.
Proof.
  intros x B Fx H. assert (Q : feq f64 x 0xbff0000000000000 = false) by (apply feq_lt; try assumption; [reflexivity|rewrite mone64; exact H]).
  unfold to_nan, rs_log1p. rewrite Q. words64 x B. rewrite ?bs_pos, ?(shl1_64 x B). destruct (below_m1_64 x B Fx H) as [S R]. destruct (bits64 x B) as [E _].
  pose proof (hi_lo64 x B). rewrite S in *. unfold bs in *. dwalk Fx.
Qed.
Lemma asinf_dom : nan_where f32 rs_asinf (fun v => 1 < Rabs v)%R. Proof. dom32 rs_asinf above1_32 Fx. Qed.
Lemma acosf_dom : nan_where f32 rs_acosf (fun v => 1 < Rabs v)%R. Proof. dom32 rs_acosf above1_32 Fx. Qed.
Lemma lw64 x : isbits f64 x -> a64 x = a64 x / 2 ^ 32 * 2 ^ 32 + get_low_word x /\ 0 <= get_low_word x < 2 ^ 32.
Proof.
  intros B. destruct (bits64 x B) as [E R]. unfold get_low_word, to_u. split; [|apply Z.mod_pos_bound; lia].
  rewrite E at 3. replace (bs (signbit f64 x) * 2 ^ 63 + a64 x) with (a64 x + bs (signbit f64 x) * 2 ^ 31 * 2 ^ 32) by lia.
  rewrite Z.mod_add by lia. pose proof (Z.div_mod (a64 x) (2 ^ 32)). lia.
Qed.
Lemma asin_dom : nan_where f64 rs_asin (fun v => 1 < Rabs v)%R.
Proof.
  dom64 rs_asin above1_64 Fx; destruct (lw64 x B) as [L L']; rewrite usub_ok by lia; dwalk Fx; (rewrite lor_eq0; [|lia|apply lw_pos]); dwalk Fx.
Qed.
Lemma acos_dom : nan_where f64 rs_acos (fun v => 1 < Rabs v)%R.
Proof.
  dom64 rs_acos above1_64 Fx; destruct (lw64 x B) as [L L']; change (to_u 32 x) with (get_low_word x); rewrite usub_ok by lia; dwalk Fx; (rewrite lor_eq0; [|lia|apply lw_pos]); dwalk Fx.
Qed.
Lemma log1p_below x : isbits f64 x -> isnan f64 x = true \/ x = infinity f64 true \/ (finite f64 x = true /\ (val f64 x < -1)%R) ->
  exists r, rs_log1p x = Some r /\ isbits f64 r /\ isnan f64 r = true.
Proof.
  intros B [N|[->|[Fx H]]]; [now apply log1p_nan| |now apply log1p_dom].
  eexists. split; [vm_compute; reflexivity|]. split; [vm_compute; split; [discriminate|reflexivity]|vm_compute; reflexivity].
Qed.
Lemma log1pf_below x : isbits f32 x -> isnan f32 x = true \/ x = infinity f32 true \/ (finite f32 x = true /\ (val f32 x < -1)%R) ->
  exists r, rs_log1pf x = Some r /\ isbits f32 r /\ isnan f32 r = true.
Proof.
  intros B [N|[->|[Fx H]]]; [now apply log1pf_nan| |now apply log1pf_dom].
  eexists. split; [vm_compute; reflexivity|]. split; [vm_compute; split; [discriminate|reflexivity]|vm_compute; reflexivity].
Qed.
(** A rounding of a real below a representable number. *)
Lemma bpow_big F s : finite F s = true -> (Rabs (val F s) < bpow radix2 (bias F + 1))%R.
Proof. intros H. now apply val_lt_max. Qed.
Lemma rounds_le F r sz y c : rounds_to F r sz y -> finite F c = true -> (r <= val F c)%R -> (val F c < 0)%R ->
  y = infinity F true \/ (finite F y = true /\ (val F y <= val F c)%R).
Proof.
  intros [B H] Fc L N. pose proof (rnd_le F _ _ L) as M. rewrite (repr_rnd F (val F c)) in M by now apply repr_val.
  destruct (Rlt_bool_spec (Rabs (rnd F r)) (bpow radix2 (bias F + 1))) as [K|K].
  - right. destruct H as (Fy & V & _). split; [exact Fy|]. now rewrite V.
  - left. rewrite H. f_equal. apply Rlt_bool_true. lra.
Qed.
Lemma rnd_diff_neg F a b : repr F a -> repr F b -> (a < b)%R -> (rnd F (a - b) < 0)%R.
Proof.
  intros Ha Hb L. destruct (repr_grid_min F a Ha) as [n ->]. destruct (repr_grid_min F b Hb) as [m ->].
  pose proof (bpow_gt_0 radix2 (emin F)) as P.
  assert (n < m) by (apply lt_IZR; nra).
  assert (D : (IZR n * bpow radix2 (emin F) - IZR m * bpow radix2 (emin F) <= - bpow radix2 (emin F))%R).
  { assert (IZR n <= IZR m - 1)%R by (rewrite <- minus_IZR; apply IZR_le; lia). nra. }
  apply (rnd_le F) in D. rewrite rnd_opp, (repr_rnd F (bpow _ _)) in D; [lra|]. apply repr_bpow. lia.
Qed.
(** [y / (1 - y)] is at most -1 for [y > 1] *)
Lemma atanh_arg F y one two mone mtwo : isbits F y -> finite F y = true -> (1 < val F y)%R -> finite F one = true -> val F one = 1%R ->
  finite F two = true -> val F two = 2%R -> finite F mone = true -> val F mone = (-1)%R -> finite F mtwo = true -> val F mtwo = (-2)%R ->
  let z := fmul F two (fdiv F y (fsub F one y)) in z = infinity F true \/ (finite F z = true /\ (val F z < -1)%R).
Proof.
  intros B Fy H F1 V1 F2 V2 F3 V3 F4 V4 z.
  assert (D : finite F (fsub F one y) = true /\ (- val F y <= val F (fsub F one y) < 0)%R).
  { pose proof (fsub_spec F one y F1 Fy) as [Bd Hd]. rewrite V1 in Hd.
    assert (L : (- val F y <= rnd F (1 - val F y) < 0)%R).
    { split; [|rewrite <- V1; apply rnd_diff_neg; try (now apply repr_val); lra].
      rewrite <- (repr_rnd F (- val F y)) by (apply repr_opp; now apply repr_val). apply rnd_le. lra. }
    rewrite Rlt_bool_true in Hd.
    - destruct Hd as (Fd & Vd & _). rewrite Vd. auto.
    - pose proof (bpow_big F y Fy) as G. rewrite Rabs_pos_eq in G by lra. rewrite Rabs_left by lra. lra. }
  destruct D as [Fd D].
  pose proof (fdiv_spec F y (fsub F one y) Fy Fd ltac:(lra)) as Q.
  assert (QL : (val F y / val F (fsub F one y) <= val F mone)%R).
  { rewrite V3. clear Q. remember (val F (fsub F one y)) as d eqn:Ed. clear Ed. replace (val F y / d)%R with (- (val F y / - d))%R by (field; lra).
    replace (-1)%R with (- (1))%R by lra. apply Ropp_le_contravar. apply Rmult_le_reg_r with (- d)%R; [lra|]. unfold Rdiv. rewrite Rmult_assoc, Rinv_l by lra. lra. }
  destruct (rounds_le F _ _ _ mone Q F3 QL ltac:(lra)) as [E|[Fq Vq]].
  - left. unfold z. rewrite E. destruct (inf_class F true) as (I2 & I3). rewrite fmul_inf_r.
    + rewrite (val_pos_sign F two) by lra. now rewrite I3.
    + exact I2.
    + now apply finite_not_nan.
    + destruct (iszero F two) eqn:Z0; [|reflexivity]. apply iszero_val in Z0. lra.
  - pose proof (fmul_spec F two _ F2 Fq) as M. assert (ML : (val F two * val F (fdiv F y (fsub F one y)) <= val F mtwo)%R) by (rewrite V2, V4; lra).
    destruct (rounds_le F _ _ _ mtwo M F4 ML ltac:(lra)) as [E|[Fz Vz]]; [now left|right].
    split; [exact Fz|]. unfold z. lra.
Qed.
Lemma val_a64 x : isbits f64 x -> isbits f64 (a64 x) /\ a64 (a64 x) = a64 x /\ finite f64 (a64 x) = finite f64 x /\ val f64 (a64 x) = Rabs (val f64 x).
Proof.
  intros B. destruct (bits64 x B) as [E R]. destruct (pos64 (a64 x) R) as (B' & E' & S'). split; [exact B'|]. split; [exact E'|].
  split. { rewrite !fin64 by assumption. now rewrite E'. }
  destruct (signbit f64 x) eqn:S.
  - replace (a64 x) with (fneg f64 x). 2: { rewrite fneg64 by assumption. rewrite S. cbn [negb bs]. lia. }
    rewrite (fneg_val f64 x B). apply val_sign_nonpos in S. now rewrite Rabs_left1.
  - rewrite (pos64_eq x B S). apply val_sign_nonneg in S. now rewrite Rabs_pos_eq.
Qed.
Lemma val_a32 x : isbits f32 x -> isbits f32 (a32 x) /\ a32 (a32 x) = a32 x /\ finite f32 (a32 x) = finite f32 x /\ val f32 (a32 x) = Rabs (val f32 x).
Proof.
  intros B. destruct (bits32 x B) as [E R]. destruct (pos32 (a32 x) R) as (B' & E' & S'). split; [exact B'|]. split; [exact E'|].
  split. { rewrite !fin32 by assumption. now rewrite E'. }
  destruct (signbit f32 x) eqn:S.
  - replace (a32 x) with (fneg f32 x). 2: { rewrite fneg32 by assumption. rewrite S. cbn [negb bs]. lia. }
    rewrite (fneg_val f32 x B). apply val_sign_nonpos in S. now rewrite Rabs_left1.
  - rewrite (pos32_eq x B S). apply val_sign_nonneg in S. now rewrite Rabs_pos_eq.
Qed.
Lemma two64 : val f64 0x4000000000000000 = 2%R. Proof. replace 2%R with (2 / 1)%R by lra. lit. Qed.
Lemma two32 : val f32 0x40000000 = 2%R. Proof. replace 2%R with (2 / 1)%R by lra. lit. Qed.
Lemma mtwo64 : val f64 0xc000000000000000 = (-2)%R. Proof. replace (-2)%R with (-2 / 1)%R by lra. lit. Qed.
Lemma mtwo32 : val f32 0xc0000000 = (-2)%R. Proof. replace (-2)%R with (-2 / 1)%R by lra. lit. Qed.
Lemma atanhf_dom : nan_where f32 rs_atanhf (fun v => 1 < Rabs v)%R.
Proof.
  intros x B Fx H. destruct (val_a32 x B) as (B' & _ & F' & V'). rewrite Fx in F'. pose proof (above1_32 x B Fx H) as R.
  unfold to_nan, rs_atanhf. words32 x B. nwalk.
  destruct (log1pf_below (0x40000000 *' (a32 x /' (0x3f800000 -' a32 x)))%fl) as (r & -> & Br & Nr); [bitsok| |].
  { right. apply (atanh_arg f32 (a32 x) 0x3f800000 0x40000000 0xbf800000 0xc0000000); try assumption; try reflexivity;
     [rewrite V'; exact H|apply one32|apply two32|apply mone32|apply mtwo32]. }
  destruct (signbit f32 x); rewrite ?negb_involutive; nwalk.
Qed.
Lemma atanh_dom : nan_where f64 rs_atanh (fun v => 1 < Rabs v)%R.
Proof.
  intros x B Fx H. destruct (val_a64 x B) as (B' & _ & F' & V'). rewrite Fx in F'. pose proof (above1_64 x B Fx H) as R.
  unfold to_nan, rs_atanh. words64 x B. rewrite (ex64 x B). pose proof (ex64_le x). nwalk.
  destruct (log1p_below (0x4000000000000000 *: (a64 x /: (0x3ff0000000000000 -: a64 x)))%fl) as (r & -> & Br & Nr); [bitsok| |].
  { right. apply (atanh_arg f64 (a64 x) 0x3ff0000000000000 0x4000000000000000 0xbff0000000000000 0xc000000000000000); try assumption; try reflexivity;
     [rewrite V'; exact H|apply one64|apply two64|apply mone64|apply mtwo64]. }
  destruct (signbit f64 x); rewrite ?negb_involutive; nwalk.
Qed.
