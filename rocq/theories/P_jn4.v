(** Symmetries and special values of [jn], [jnf], [yn], [ynf]. *)
From Coq Require Import ZArith Reals Lia Lra Bool List.
From Flocq Require Import Core.
From Verif Require Import Base Spec SpecFun SpecSym SpecBes Format P_format Ieee P_ieee P_real P_neg M_basic M_elib M_sqrt M_trig M_log M_bessel M_jn
  P_lit P_dom P_elem P_elem2 P_tot P_nan P_sym P_sym2 P_sym3 P_sym4 P_bessel P_jn2 P_jn3.
Import ListNotations.
Open Scope Z_scope.
Open Scope fl_scope.

Lemma i32_in n : is_i32 n -> in_i 32 n = true.
Proof. intros [A B]. unfold in_i. change (2 ^ (32 - 1)) with (2 ^ 31). apply andb_true_intro. split; [now apply Z.leb_le|now apply Z.ltb_lt]. Qed.
Lemma run_ret {S R} (step : S -> option (ctl S R)) s r p : step s = Some (Ret r) -> run p step s = Some r.
Proof.
  intros H. assert (L : forall p, loop p step s = Some (Ret r)). { clear p. induction p as [p IH|p IH|]; cbn [loop]; rewrite ?H, ?IH; try reflexivity. }
  unfold run. now rewrite L.
Qed.
Lemma same_sym F a b : same F a b -> same F b a. Proof. intros [->|[A B]]; [now left|now right]. Qed.
Lemma same_refl F a : same F a a. Proof. now left. Qed.
Lemma rel_same F s a b : rel F true s a b -> isbits F a -> same F b (if s then opposite F a else a).
Proof.
  intros R B. destruct (isnan F a) eqn:N.
  - right. split; [now rewrite (rel_nan _ _ _ _ _ R)|]. destruct s; [|exact N]. rewrite opposite_fneg by exact B. now rewrite nan_fneg.
  - left. rewrite (rel_eq F s a b R N). destruct s; [symmetry; now apply opposite_fneg|reflexivity].
Qed.
Lemma odd_opp n : Z.odd (- n) = Z.odd n. Proof. apply Z.odd_opp. Qed.
Lemma total_of F f : (forall n x, in_i 32 n = true -> isbits F x -> exists r, f n x = Some r /\ isbits F r) -> total_n F f.
Proof. intros H n x N B. apply H; [now apply i32_in|exact B]. Qed.
Lemma opp_bits F x : isbits F x -> isbits F (opposite F x). Proof. intros B. rewrite opposite_fneg by exact B. now apply fneg_isbits. Qed.

(** ** f64 *)
Lemma j0_opp x : isbits f64 x -> isnan f64 x = false -> agree f64 (rs_j0 (fneg f64 x)) (rs_j0 x).
Proof.
  intros B N. destruct (j0_tot x B) as (r & E & Br). destruct (j0_even x r B N E) as (r' & E' & R). exists r', r. split; [exact E'|]. split; [exact E|]. exact (rel_same f64 false r r' R Br).
Qed.
Lemma j1_opp x : isbits f64 x -> finite f64 x = true -> exists r r', rs_j1 x = Some r /\ rs_j1 (fneg f64 x) = Some r' /\ same f64 r' (opposite f64 r).
Proof.
  intros B Fx. pose proof (fneg_isbits f64 x B) as B'. destruct (signbit f64 x) eqn:S.
  - destruct (j1_tot _ B') as (r & E & Br). destruct (j1_odd _ r B' ltac:(now rewrite fneg_finite) ltac:(now rewrite sign_fneg, S) E) as (r' & E' & R). rewrite fneg_invol in E'. exists r', r. split; [exact E'|]. split; [exact E|].
    apply rel_sym in R. apply (rel_same f64 true r' r R). apply (rel_bits _ _ _ _ _ R).
  - destruct (j1_tot x B) as (r & E & Br). destruct (j1_odd x r B Fx S E) as (r' & E' & R). exists r, r'. split; [exact E|]. split; [exact E'|]. exact (rel_same f64 true r r' R Br).
Qed.
Lemma jn_reflect n x : is_i32 n -> is_i32 (- n) -> isbits f64 x -> agree f64 (rs_jn (- n) x) (rs_jn n (opposite f64 x)).
Proof.
  intros N N' B. rewrite opposite_fneg by exact B. pose proof (fneg_isbits f64 x B) as B'. rewrite (jn_eq (- n) x (i32_in _ N') B), (jn_eq n _ (i32_in _ N) B'), nan_fneg by exact B. rewrite (a64_fneg x B), (sign_fneg f64 x B), fneg_invol, Z.abs_opp, odd_opp.
  destruct (isnan f64 x) eqn:NA; [exists x, (fneg f64 x); split; [reflexivity|]; split; [reflexivity|]; right; split; [exact NA|now rewrite nan_fneg]|].
  destruct (Z.eqb_spec n 0) as [->|N0]. { change (- 0 =? 0) with true. cbv iota. destruct (j0_opp x B NA) as (r & s & E1 & E2 & H). exists s, r. split; [exact E2|]. split; [exact E1|]. now apply same_sym. }
  destruct (Z.eqb_spec (- n) 0); [lia|].
  destruct (Z.eqb_spec n 1) as [->|N1]. { change (- 1 =? 1) with false. change (- 1 =? -1) with true. cbv iota. destruct (j1_tot _ B') as (r & E & _). exists r, r. split; [exact E|]. split; [exact E|apply same_refl]. }
  destruct (Z.eqb_spec n (-1)) as [->|N2]. { change (- (-1) =? 1) with true. cbv iota. destruct (j1_tot x B) as (r & E & _). exists r, r. split; [exact E|]. split; [exact E|apply same_refl]. }
  destruct (Z.eqb_spec (- n) 1); [lia|]. destruct (Z.eqb_spec (- n) (-1)); [lia|].
  pose proof NA as NB. rewrite (nan64 x B) in NB. apply Z.ltb_ge in NB. destruct (bits64 x B) as [_ R]. pose proof (in_i32 n (i32_in _ N)) as NR. pose proof (in_i32 _ (i32_in _ N')) as NR'.
  destruct (jmag_tot (Z.abs n - 1) (a64 x) ltac:(lia) ltac:(lia)) as (b & -> & Bb). cbn [bind]. eexists; eexists; split; [reflexivity|]; split; [reflexivity|]. left.
  destruct (Z.ltb_spec (- n) 0), (Z.ltb_spec n 0); try lia; destruct (signbit f64 x); reflexivity.
Qed.
Lemma jn_parity n x : is_i32 n -> isbits f64 x -> finite f64 x = true \/ 2 <= Z.abs n -> exists r s, rs_jn n x = Some r /\ rs_jn n (opposite f64 x) = Some s /\ same f64 s (alternate f64 n r).
Proof.
  intros N B FN. rewrite opposite_fneg by exact B. pose proof (fneg_isbits f64 x B) as B'. rewrite (jn_eq n x (i32_in _ N) B), (jn_eq n _ (i32_in _ N) B'), nan_fneg by exact B. rewrite (a64_fneg x B), (sign_fneg f64 x B), fneg_invol.
  destruct (isnan f64 x) eqn:NA. { exists x, (fneg f64 x). split; [reflexivity|]. split; [reflexivity|]. right. rewrite nan_fneg by exact B. split; [exact NA|]. unfold alternate. destruct (Z.odd n); [|exact NA]. rewrite opposite_fneg by exact B. now rewrite nan_fneg. }
  destruct (Z.eqb_spec n 0) as [->|N0]. { destruct (j0_opp x B NA) as (r & s & E1 & E2 & H). exists s, r. auto. }
  destruct (Z.eqb_spec n 1) as [->|N1]. { destruct FN as [Fx|]; [|lia]. apply (j1_opp x B Fx). }
  destruct (Z.eqb_spec n (-1)) as [->|N2]. { destruct FN as [Fx|]; [|lia]. destruct (j1_opp (fneg f64 x) B' ltac:(now rewrite fneg_finite)) as (r & r' & E & E' & H). rewrite fneg_invol in E'. exists r, r'. auto. }
  pose proof NA as NB. rewrite (nan64 x B) in NB. apply Z.ltb_ge in NB. destruct (bits64 x B) as [_ R]. pose proof (in_i32 n (i32_in _ N)) as NR.
  destruct (jmag_tot (Z.abs n - 1) (a64 x) ltac:(lia) ltac:(lia)) as (b & -> & Bb). cbn [bind]. eexists; eexists; split; [reflexivity|]; split; [reflexivity|]. left.
  unfold alternate. destruct (Z.odd n), (n <? 0), (signbit f64 x); cbn [negb xorb andb]; rewrite ?opposite_fneg, ?fneg_invol by (try apply fneg_isbits; exact Bb); reflexivity.
Qed.
Lemma yn_reflect n x : is_i32 n -> is_i32 (- n) -> isbits f64 x -> isinf f64 x = false -> exists r s, rs_yn n x = Some r /\ rs_yn (- n) x = Some s /\ same f64 s (alternate f64 n r).
Proof.
  intros N N' B I. rewrite (yn_eq n x (i32_in _ N) B), (yn_eq (- n) x (i32_in _ N') B). rewrite Z.abs_opp, odd_opp, I.
  destruct (isnan f64 x) eqn:NA. { exists x, x. split; [reflexivity|]. split; [reflexivity|]. right. split; [exact NA|]. unfold alternate. destruct (Z.odd n); [|exact NA]. rewrite opposite_fneg by exact B. now rewrite nan_fneg. }
  destruct (signbit f64 x && negb (iszero f64 x)). { eexists; eexists; split; [reflexivity|]; split; [reflexivity|]. right. unfold alternate. destruct (Z.odd n); split; vm_compute; reflexivity. }
  destruct (Z.eqb_spec n 0) as [->|N0]. { change (- 0 =? 0) with true. cbv iota. destruct (y0_tot x B) as (r & E & _). exists r, r. split; [exact E|]. split; [exact E|]. apply same_refl. }
  destruct (Z.eqb_spec (- n) 0); [lia|]. pose proof (in_i32 n (i32_in _ N)) as NR. pose proof (in_i32 _ (i32_in _ N')) as NR'.
  assert (T : exists b, (if Z.abs n =? 1 then rs_y1 x else rs_yn_pos (Z.abs n - 1) x (a64 x / 2 ^ 32)) = Some b /\ isbits f64 b).
  { destruct (Z.eqb_spec (Z.abs n) 1); [now apply y1_tot|]. apply ymag_tot; [lia|exact B]. }
  destruct T as (b & -> & Bb). cbn [bind]. eexists; eexists; split; [reflexivity|]; split; [reflexivity|]. left. unfold negif, alternate.
  destruct (Z.ltb_spec (- n) 0), (Z.ltb_spec n 0); try lia; destruct (Z.odd n); cbn [andb]; rewrite ?opposite_fneg, ?fneg_invol by (try apply fneg_isbits; exact Bb); reflexivity.
Qed.
(** special values *)
Lemma jn_nan n x : is_i32 n -> isbits f64 x -> isnan f64 x = true -> rs_jn n x = Some x.
Proof. intros N B NA. rewrite (jn_eq n x (i32_in _ N) B). now rewrite NA. Qed.
Lemma yn_nan n x : is_i32 n -> isbits f64 x -> isnan f64 x = true -> rs_yn n x = Some x.
Proof. intros N B NA. rewrite (yn_eq n x (i32_in _ N) B). now rewrite NA. Qed.
Lemma zero_cases64 x : isbits f64 x -> iszero f64 x = true -> x = zero f64 (signbit f64 x).
Proof. intros B Z. rewrite (zer64 x B) in Z. apply Z.eqb_eq in Z. destruct (bits64 x B) as [E _]. rewrite E at 1. rewrite Z. destruct (signbit f64 x); reflexivity. Qed.
Lemma jn_zero n x : is_i32 n -> isbits f64 x -> iszero f64 x = true -> n <> 0 -> rs_jn n x = Some (zero f64 (xorb (n <? 0) (signbit f64 x) && Z.odd n)).
Proof.
  intros N B Z N0. pose proof (zero_cases64 x B Z) as X. set (s := signbit f64 x) in *. clearbody s. subst x. rewrite (jn_eq n _ (i32_in _ N) B).
  replace (isnan f64 (zero f64 s)) with false by (destruct s; reflexivity). destruct (Z.eqb_spec n 0); [contradiction|].
  destruct (Z.eqb_spec n 1) as [->|N1]; [destruct s; vm_compute; reflexivity|]. destruct (Z.eqb_spec n (-1)) as [->|N2]; [destruct s; vm_compute; reflexivity|].
  replace (a64 (zero f64 s)) with 0 by (destruct s; reflexivity). replace (signbit f64 (zero f64 s)) with s by (destruct s; reflexivity).
  change (jmag (Z.abs n - 1) 0) with (Some 0). cbn [bind]. destruct (xorb (n <? 0) s && Z.odd n); reflexivity.
Qed.
Lemma jn_zero0 x : isbits f64 x -> iszero f64 x = true -> rs_jn 0 x = Some 0x3ff0000000000000.
Proof. intros B Z. pose proof (zero_cases64 x B Z) as X. destruct (signbit f64 x); subst x; vm_compute; reflexivity. Qed.
Lemma inf_cases64 x : isbits f64 x -> isinf f64 x = true -> x = infinity f64 (signbit f64 x).
Proof. intros B Z. rewrite (inf64 x B) in Z. apply Z.eqb_eq in Z. destruct (bits64 x B) as [E _]. rewrite E at 1. rewrite Z. destruct (signbit f64 x); reflexivity. Qed.
Lemma jn_inf n x : is_i32 n -> isbits f64 x -> isinf f64 x = true -> exists r, rs_jn n x = Some r /\ iszero f64 r = true.
Proof.
  intros N B Z. pose proof (inf_cases64 x B Z) as X. set (s := signbit f64 x) in *. clearbody s. subst x. rewrite (jn_eq n _ (i32_in _ N) B).
  replace (isnan f64 (infinity f64 s)) with false by (destruct s; reflexivity). destruct (Z.eqb_spec n 0); [exists 0; destruct s; vm_compute; split; reflexivity|].
  destruct (Z.eqb_spec n 1) as [->|N1]; [exists 0; destruct s; vm_compute; split; reflexivity|]. destruct (Z.eqb_spec n (-1)) as [->|N2]; [exists 0; destruct s; vm_compute; split; reflexivity|].
  replace (a64 (infinity f64 s)) with 0x7ff0000000000000 by (destruct s; reflexivity).
  change (jmag (Z.abs n - 1) 0x7ff0000000000000) with (Some 0). cbn [bind]. eexists; split; [reflexivity|]. destruct (xorb _ _ && _); reflexivity.
Qed.
Lemma yn_neg n x : is_i32 n -> isbits f64 x -> isnan f64 x = false -> signbit f64 x = true -> iszero f64 x = false -> exists r, rs_yn n x = Some r /\ isnan f64 r = true.
Proof. intros N B NA S Z. rewrite (yn_eq n x (i32_in _ N) B). rewrite NA, S, Z. cbn [negb andb]. eexists; split; [reflexivity|]. vm_compute. reflexivity. Qed.
Lemma yn_inf n : is_i32 n -> rs_yn n (infinity f64 false) = Some 0.
Proof. intros N. rewrite (yn_eq n _ (i32_in _ N)) by (vm_compute; split; [discriminate|reflexivity]). reflexivity. Qed.
Lemma yn_zero n x : is_i32 n -> isbits f64 x -> iszero f64 x = true -> rs_yn n x = Some (infinity f64 (negb ((n <? 0) && Z.odd n))).
Proof.
  intros N B Z. pose proof (zero_cases64 x B Z) as X. set (s := signbit f64 x) in *. clearbody s. subst x. rewrite (yn_eq n _ (i32_in _ N) B).
  replace (isnan f64 (zero f64 s)) with false by (destruct s; reflexivity). replace (isinf f64 (zero f64 s)) with false by (destruct s; reflexivity). replace (signbit f64 (zero f64 s) && negb (iszero f64 (zero f64 s))) with false by (destruct s; reflexivity). cbv iota.
  destruct (Z.eqb_spec n 0) as [->|N0]; [destruct s; vm_compute; reflexivity|].
  assert (T : (if Z.abs n =? 1 then rs_y1 (zero f64 s) else rs_yn_pos (Z.abs n - 1) (zero f64 s) (a64 (zero f64 s) / 2 ^ 32)) = Some (infinity f64 true)).
  { destruct (Z.eqb_spec (Z.abs n) 1); [destruct s; vm_compute; reflexivity|]. set (m := Z.abs n - 1). clearbody m. unfold rs_yn_pos.
    replace (0x52d00000 <=? a64 (zero f64 s) / 2 ^ 32) with false by (destruct s; reflexivity). cbv iota.
    replace (rs_y0 (zero f64 s)) with (Some (infinity f64 true)) by (destruct s; vm_compute; reflexivity). replace (rs_y1 (zero f64 s)) with (Some (infinity f64 true)) by (destruct s; vm_compute; reflexivity). cbn [bind]. apply run_ret. unfold rs_yn_fwd.
    change (get_high_word (infinity f64 true) =? 0xfff00000) with true. rewrite andb_false_r. reflexivity. }
  rewrite T. cbn [bind]. unfold negif. destruct ((n <? 0) && Z.odd n); reflexivity.
Qed.
(** orders 0 and 1 *)
Lemma nan_hi64 x : isbits f64 x -> isnan f64 x = true -> 0x7ff00000 <= a64 x / 2 ^ 32 /\ a64 x <> 0.
Proof. intros B NA. rewrite (nan64 x B) in NA. apply Z.ltb_lt in NA. split; [apply Z.div_le_lower_bound; lia|lia]. Qed.
Lemma j0_nan x : isbits f64 x -> isnan f64 x = true -> exists r, rs_j0 x = Some r /\ isnan f64 r = true.
Proof.
  intros B NA. destruct (nan_hi64 x B NA) as [H _]. unfold rs_j0. words64 x B. cbv zeta. rewrite (proj2 (Z.leb_le _ _) H). eexists; split; [reflexivity|]. apply fdiv_nan. rewrite (fmul_nan f64 x x) by now rewrite NA. apply orb_true_r.
Qed.
Lemma j1_nan x : isbits f64 x -> isnan f64 x = true -> exists r, rs_j1 x = Some r /\ isnan f64 r = true.
Proof.
  intros B NA. destruct (nan_hi64 x B NA) as [H _]. unfold rs_j1. words64 x B. cbv zeta. rewrite (proj2 (Z.leb_le _ _) H). eexists; split; [reflexivity|]. apply fdiv_nan. rewrite (fmul_nan f64 x x) by now rewrite NA. apply orb_true_r.
Qed.
Lemma ytest64 x : isbits f64 x -> iszero f64 x = false -> (Z.lor (shlu 32 (bs (signbit f64 x) * 2 ^ 31 + a64 x / 2 ^ 32) 1) (get_low_word x) =? 0) = false.
Proof.
  intros B Z. rewrite (zer64 x B) in Z. apply Z.eqb_neq in Z. destruct (lw64 x B) as [E R]. pose proof (a64_hi x B) as R2. unfold shlu. rewrite Z.shiftl_mul_pow2 by lia. rewrite P_nan.lor_eq0; [|apply Z.mod_pos_bound; lia|lia].
  replace ((bs (signbit f64 x) * 2 ^ 31 + a64 x / 2 ^ 32) * 2 ^ 1) with (a64 x / 2 ^ 32 * 2 + bs (signbit f64 x) * 2 ^ 32) by ring. rewrite Z.mod_add, Z.mod_small by lia.
  destruct (Z.eqb_spec (a64 x / 2 ^ 32 * 2) 0), (Z.eqb_spec (get_low_word x) 0); try reflexivity. lia.
Qed.
Lemma nan_not_zero64 x : isbits f64 x -> isnan f64 x = true -> iszero f64 x = false.
Proof. intros B NA. destruct (nan_hi64 x B NA) as [_ H]. rewrite (zer64 x B). now apply Z.eqb_neq. Qed.
Lemma y0_bad x : isbits f64 x -> isnan f64 x = true \/ signbit f64 x = true -> iszero f64 x = false -> exists r, rs_y0 x = Some r /\ isnan f64 r = true.
Proof.
  intros B H Z. unfold rs_y0. cbv zeta. unfold get_high_word. rewrite (hw64 x B), (shr31 _ _ (a64_hi x B)). rewrite (ytest64 x B Z). destruct (signbit f64 x) eqn:S; cbn [bs].
  - eexists; split; [reflexivity|]. vm_compute. reflexivity.
  - destruct H as [NA|]; [|discriminate]. destruct (nan_hi64 x B NA) as [L _]. change (negb (0 =? 0)) with false. cbv iota. rewrite Z.mul_0_l, Z.add_0_l.
    rewrite (proj2 (Z.leb_le _ _) L). eexists; split; [reflexivity|]. apply fdiv_nan. rewrite NA. apply orb_true_r.
Qed.
Lemma yn_0 x : isbits f64 x -> agree f64 (rs_yn 0 x) (rs_y0 x).
Proof.
  intros B. rewrite (yn_eq 0 x eq_refl B). destruct (isnan f64 x) eqn:NA.
  - destruct (y0_bad x B (or_introl NA) (nan_not_zero64 x B NA)) as (r & E & H). exists x, r. split; [reflexivity|]. split; [exact E|]. now right.
  - destruct (iszero f64 x) eqn:Z.
    + rewrite andb_false_r. assert (I : isinf f64 x = false). { rewrite (zer64 x B) in Z. rewrite (inf64 x B). apply Z.eqb_eq in Z. rewrite Z. reflexivity. } rewrite I.
      destruct (y0_tot x B) as (r & E & _). cbn. rewrite E. exists r, r. split; [reflexivity|]. split; [reflexivity|apply same_refl].
    + destruct (signbit f64 x) eqn:S; cbn [andb negb].
      * destruct (y0_bad x B (or_intror S) Z) as (r & E & H). eexists; exists r. split; [reflexivity|]. split; [exact E|]. right. split; [vm_compute; reflexivity|exact H].
      * destruct (isinf f64 x) eqn:I.
        -- rewrite (inf_cases64 x B I), S. exists 0, 0. split; [reflexivity|]. split; [vm_compute; reflexivity|apply same_refl].
        -- destruct (y0_tot x B) as (r & E & _). cbn. rewrite E. exists r, r. split; [reflexivity|]. split; [reflexivity|apply same_refl].
Qed.
Lemma jn_0 x : isbits f64 x -> agree f64 (rs_jn 0 x) (rs_j0 x).
Proof.
  intros B. rewrite (jn_eq 0 x eq_refl B). destruct (j0_tot x B) as (r & E & _). destruct (isnan f64 x) eqn:NA.
  - destruct (j0_nan x B NA) as (r' & E' & H). exists x, r'. split; [reflexivity|]. split; [exact E'|]. now right.
  - change (0 =? 0) with true. cbv iota. rewrite E. exists r, r. split; [reflexivity|]. split; [reflexivity|apply same_refl].
Qed.
Lemma y1_bad x : isbits f64 x -> isnan f64 x = true \/ signbit f64 x = true -> iszero f64 x = false -> exists r, rs_y1 x = Some r /\ isnan f64 r = true.
Proof.
  intros B H Z. unfold rs_y1. cbv zeta. unfold get_high_word. rewrite (hw64 x B), (shr31 _ _ (a64_hi x B)). rewrite (ytest64 x B Z). destruct (signbit f64 x) eqn:S; cbn [bs].
  - eexists; split; [reflexivity|]. vm_compute. reflexivity.
  - destruct H as [NA|]; [|discriminate]. destruct (nan_hi64 x B NA) as [L _]. change (negb (0 =? 0)) with false. cbv iota. rewrite Z.mul_0_l, Z.add_0_l.
    rewrite (proj2 (Z.leb_le _ _) L). eexists; split; [reflexivity|]. apply fdiv_nan. rewrite NA. apply orb_true_r.
Qed.
Lemma yn_1 x : isbits f64 x -> agree f64 (rs_yn 1 x) (rs_y1 x).
Proof.
  intros B. rewrite (yn_eq 1 x eq_refl B). destruct (isnan f64 x) eqn:NA.
  - destruct (y1_bad x B (or_introl NA) (nan_not_zero64 x B NA)) as (r & E & H). exists x, r. split; [reflexivity|]. split; [exact E|]. now right.
  - destruct (iszero f64 x) eqn:Z.
    + rewrite andb_false_r. assert (I : isinf f64 x = false). { rewrite (zer64 x B) in Z. rewrite (inf64 x B). apply Z.eqb_eq in Z. rewrite Z. reflexivity. } rewrite I.
      destruct (y1_tot x B) as (r & E & _). cbn. rewrite E. exists r, r. split; [reflexivity|]. split; [reflexivity|apply same_refl].
    + destruct (signbit f64 x) eqn:S; cbn [andb negb].
      * destruct (y1_bad x B (or_intror S) Z) as (r & E & H). eexists; exists r. split; [reflexivity|]. split; [exact E|]. right. split; [vm_compute; reflexivity|exact H].
      * destruct (isinf f64 x) eqn:I.
        -- rewrite (inf_cases64 x B I), S. exists 0, 0. split; [reflexivity|]. split; [vm_compute; reflexivity|apply same_refl].
        -- destruct (y1_tot x B) as (r & E & _). cbn. rewrite E. exists r, r. split; [reflexivity|]. split; [reflexivity|apply same_refl].
Qed.
Lemma jn_1 x : isbits f64 x -> agree f64 (rs_jn 1 x) (rs_j1 x).
Proof.
  intros B. rewrite (jn_eq 1 x eq_refl B). destruct (j1_tot x B) as (r & E & _). destruct (isnan f64 x) eqn:NA.
  - destruct (j1_nan x B NA) as (r' & E' & H). exists x, r'. split; [reflexivity|]. split; [exact E'|]. now right.
  - change (1 =? 0) with false. cbv iota. change (1 =? 1) with true. cbv iota. rewrite E. exists r, r. split; [reflexivity|]. split; [reflexivity|apply same_refl].
Qed.

(** ** f32 *)
Lemma j0f_opp x : isbits f32 x -> isnan f32 x = false -> agree f32 (rs_j0f (fneg f32 x)) (rs_j0f x).
Proof.
  intros B N. destruct (j0f_tot x B) as (r & E & Br). destruct (j0f_even x r B N E) as (r' & E' & R). exists r', r. split; [exact E'|]. split; [exact E|]. exact (rel_same f32 false r r' R Br).
Qed.
Lemma j1f_opp x : isbits f32 x -> finite f32 x = true -> exists r r', rs_j1f x = Some r /\ rs_j1f (fneg f32 x) = Some r' /\ same f32 r' (opposite f32 r).
Proof.
  intros B Fx. pose proof (fneg_isbits f32 x B) as B'. destruct (signbit f32 x) eqn:S.
  - destruct (j1f_tot _ B') as (r & E & Br). destruct (j1f_odd _ r B' ltac:(now rewrite fneg_finite) ltac:(now rewrite sign_fneg, S) E) as (r' & E' & R). rewrite fneg_invol in E'. exists r', r. split; [exact E'|]. split; [exact E|].
    apply rel_sym in R. apply (rel_same f32 true r' r R). apply (rel_bits _ _ _ _ _ R).
  - destruct (j1f_tot x B) as (r & E & Br). destruct (j1f_odd x r B Fx S E) as (r' & E' & R). exists r, r'. split; [exact E|]. split; [exact E'|]. exact (rel_same f32 true r r' R Br).
Qed.
Lemma jnf_reflect n x : is_i32 n -> is_i32 (- n) -> isbits f32 x -> agree f32 (rs_jnf (- n) x) (rs_jnf n (opposite f32 x)).
Proof.
  intros N N' B. rewrite opposite_fneg by exact B. pose proof (fneg_isbits f32 x B) as B'. rewrite (jnf_eq (- n) x (i32_in _ N') B), (jnf_eq n _ (i32_in _ N) B'), nan_fneg by exact B. rewrite (a32_fneg x B), (sign_fneg f32 x B), fneg_invol, Z.abs_opp, odd_opp.
  destruct (isnan f32 x) eqn:NA; [exists x, (fneg f32 x); split; [reflexivity|]; split; [reflexivity|]; right; split; [exact NA|now rewrite nan_fneg]|].
  destruct (Z.eqb_spec n 0) as [->|N0]. { change (- 0 =? 0) with true. cbv iota. destruct (j0f_opp x B NA) as (r & s & E1 & E2 & H). exists s, r. split; [exact E2|]. split; [exact E1|]. now apply same_sym. }
  destruct (Z.eqb_spec (- n) 0); [lia|].
  destruct (Z.eqb_spec n 1) as [->|N1]. { change (- 1 =? 1) with false. change (- 1 =? -1) with true. cbv iota. destruct (j1f_tot _ B') as (r & E & _). exists r, r. split; [exact E|]. split; [exact E|apply same_refl]. }
  destruct (Z.eqb_spec n (-1)) as [->|N2]. { change (- (-1) =? 1) with true. cbv iota. destruct (j1f_tot x B) as (r & E & _). exists r, r. split; [exact E|]. split; [exact E|apply same_refl]. }
  destruct (Z.eqb_spec (- n) 1); [lia|]. destruct (Z.eqb_spec (- n) (-1)); [lia|].
  pose proof NA as NB. rewrite (nan32 x B) in NB. apply Z.ltb_ge in NB. destruct (bits32 x B) as [_ R]. pose proof (in_i32 n (i32_in _ N)) as NR. pose proof (in_i32 _ (i32_in _ N')) as NR'.
  destruct (jmagf_tot (Z.abs n - 1) (a32 x) ltac:(lia) ltac:(lia)) as (b & -> & Bb). cbn [bind]. eexists; eexists; split; [reflexivity|]; split; [reflexivity|]. left.
  destruct (Z.ltb_spec (- n) 0), (Z.ltb_spec n 0); try lia; destruct (signbit f32 x); reflexivity.
Qed.
Lemma jnf_parity n x : is_i32 n -> isbits f32 x -> finite f32 x = true \/ 2 <= Z.abs n -> exists r s, rs_jnf n x = Some r /\ rs_jnf n (opposite f32 x) = Some s /\ same f32 s (alternate f32 n r).
Proof.
  intros N B FN. rewrite opposite_fneg by exact B. pose proof (fneg_isbits f32 x B) as B'. rewrite (jnf_eq n x (i32_in _ N) B), (jnf_eq n _ (i32_in _ N) B'), nan_fneg by exact B. rewrite (a32_fneg x B), (sign_fneg f32 x B), fneg_invol.
  destruct (isnan f32 x) eqn:NA. { exists x, (fneg f32 x). split; [reflexivity|]. split; [reflexivity|]. right. rewrite nan_fneg by exact B. split; [exact NA|]. unfold alternate. destruct (Z.odd n); [|exact NA]. rewrite opposite_fneg by exact B. now rewrite nan_fneg. }
  destruct (Z.eqb_spec n 0) as [->|N0]. { destruct (j0f_opp x B NA) as (r & s & E1 & E2 & H). exists s, r. auto. }
  destruct (Z.eqb_spec n 1) as [->|N1]. { destruct FN as [Fx|]; [|lia]. apply (j1f_opp x B Fx). }
  destruct (Z.eqb_spec n (-1)) as [->|N2]. { destruct FN as [Fx|]; [|lia]. destruct (j1f_opp (fneg f32 x) B' ltac:(now rewrite fneg_finite)) as (r & r' & E & E' & H). rewrite fneg_invol in E'. exists r, r'. auto. }
  pose proof NA as NB. rewrite (nan32 x B) in NB. apply Z.ltb_ge in NB. destruct (bits32 x B) as [_ R]. pose proof (in_i32 n (i32_in _ N)) as NR.
  destruct (jmagf_tot (Z.abs n - 1) (a32 x) ltac:(lia) ltac:(lia)) as (b & -> & Bb). cbn [bind]. eexists; eexists; split; [reflexivity|]; split; [reflexivity|]. left.
  unfold alternate. destruct (Z.odd n), (n <? 0), (signbit f32 x); cbn [negb xorb andb]; rewrite ?opposite_fneg, ?fneg_invol by (try apply fneg_isbits; exact Bb); reflexivity.
Qed.
Lemma ynf_reflect n x : is_i32 n -> is_i32 (- n) -> isbits f32 x -> isinf f32 x = false -> exists r s, rs_ynf n x = Some r /\ rs_ynf (- n) x = Some s /\ same f32 s (alternate f32 n r).
Proof.
  intros N N' B I. rewrite (ynf_eq n x (i32_in _ N) B), (ynf_eq (- n) x (i32_in _ N') B). rewrite Z.abs_opp, odd_opp, I.
  destruct (isnan f32 x) eqn:NA. { exists x, x. split; [reflexivity|]. split; [reflexivity|]. right. split; [exact NA|]. unfold alternate. destruct (Z.odd n); [|exact NA]. rewrite opposite_fneg by exact B. now rewrite nan_fneg. }
  destruct (signbit f32 x && negb (iszero f32 x)). { eexists; eexists; split; [reflexivity|]; split; [reflexivity|]. right. unfold alternate. destruct (Z.odd n); split; vm_compute; reflexivity. }
  destruct (Z.eqb_spec n 0) as [->|N0]. { change (- 0 =? 0) with true. cbv iota. destruct (y0f_tot x B) as (r & E & _). exists r, r. split; [exact E|]. split; [exact E|]. apply same_refl. }
  destruct (Z.eqb_spec (- n) 0); [lia|]. pose proof (in_i32 n (i32_in _ N)) as NR. pose proof (in_i32 _ (i32_in _ N')) as NR'.
  assert (T : exists b, (if Z.abs n =? 1 then rs_y1f x else rs_ynf_pos (Z.abs n - 1) x) = Some b /\ isbits f32 b).
  { destruct (Z.eqb_spec (Z.abs n) 1); [now apply y1f_tot|]. apply ymagf_tot; [lia|exact B]. }
  destruct T as (b & -> & Bb). cbn [bind]. eexists; eexists; split; [reflexivity|]; split; [reflexivity|]. left. unfold negif, alternate.
  destruct (Z.ltb_spec (- n) 0), (Z.ltb_spec n 0); try lia; destruct (Z.odd n); cbn [andb]; rewrite ?opposite_fneg, ?fneg_invol by (try apply fneg_isbits; exact Bb); reflexivity.
Qed.
(** special values *)
Lemma jnf_nan n x : is_i32 n -> isbits f32 x -> isnan f32 x = true -> rs_jnf n x = Some x.
Proof. intros N B NA. rewrite (jnf_eq n x (i32_in _ N) B). now rewrite NA. Qed.
Lemma ynf_nan n x : is_i32 n -> isbits f32 x -> isnan f32 x = true -> rs_ynf n x = Some x.
Proof. intros N B NA. rewrite (ynf_eq n x (i32_in _ N) B). now rewrite NA. Qed.
Lemma zero_cases32 x : isbits f32 x -> iszero f32 x = true -> x = zero f32 (signbit f32 x).
Proof. intros B Z. rewrite (zer32 x B) in Z. apply Z.eqb_eq in Z. destruct (bits32 x B) as [E _]. rewrite E at 1. rewrite Z. destruct (signbit f32 x); reflexivity. Qed.
Lemma jnf_zero n x : is_i32 n -> isbits f32 x -> iszero f32 x = true -> n <> 0 -> rs_jnf n x = Some (zero f32 (xorb (n <? 0) (signbit f32 x) && Z.odd n)).
Proof.
  intros N B Z N0. pose proof (zero_cases32 x B Z) as X. set (s := signbit f32 x) in *. clearbody s. subst x. rewrite (jnf_eq n _ (i32_in _ N) B).
  replace (isnan f32 (zero f32 s)) with false by (destruct s; reflexivity). destruct (Z.eqb_spec n 0); [contradiction|].
  destruct (Z.eqb_spec n 1) as [->|N1]; [destruct s; vm_compute; reflexivity|]. destruct (Z.eqb_spec n (-1)) as [->|N2]; [destruct s; vm_compute; reflexivity|].
  replace (a32 (zero f32 s)) with 0 by (destruct s; reflexivity). replace (signbit f32 (zero f32 s)) with s by (destruct s; reflexivity).
  change (jmagf (Z.abs n - 1) 0) with (Some 0). cbn [bind]. destruct (xorb (n <? 0) s && Z.odd n); reflexivity.
Qed.
Lemma jnf_zero0 x : isbits f32 x -> iszero f32 x = true -> rs_jnf 0 x = Some 0x3f800000.
Proof. intros B Z. pose proof (zero_cases32 x B Z) as X. destruct (signbit f32 x); subst x; vm_compute; reflexivity. Qed.
Lemma inf_cases32 x : isbits f32 x -> isinf f32 x = true -> x = infinity f32 (signbit f32 x).
Proof. intros B Z. rewrite (inf32 x B) in Z. apply Z.eqb_eq in Z. destruct (bits32 x B) as [E _]. rewrite E at 1. rewrite Z. destruct (signbit f32 x); reflexivity. Qed.
Lemma jnf_inf n x : is_i32 n -> isbits f32 x -> isinf f32 x = true -> exists r, rs_jnf n x = Some r /\ iszero f32 r = true.
Proof.
  intros N B Z. pose proof (inf_cases32 x B Z) as X. set (s := signbit f32 x) in *. clearbody s. subst x. rewrite (jnf_eq n _ (i32_in _ N) B).
  replace (isnan f32 (infinity f32 s)) with false by (destruct s; reflexivity). destruct (Z.eqb_spec n 0); [exists 0; destruct s; vm_compute; split; reflexivity|].
  destruct (Z.eqb_spec n 1) as [->|N1]; [exists 0; destruct s; vm_compute; split; reflexivity|]. destruct (Z.eqb_spec n (-1)) as [->|N2]; [exists 0; destruct s; vm_compute; split; reflexivity|].
  replace (a32 (infinity f32 s)) with 0x7f800000 by (destruct s; reflexivity).
  change (jmagf (Z.abs n - 1) 0x7f800000) with (Some 0). cbn [bind]. eexists; split; [reflexivity|]. destruct (xorb _ _ && _); reflexivity.
Qed.
Lemma ynf_neg n x : is_i32 n -> isbits f32 x -> isnan f32 x = false -> signbit f32 x = true -> iszero f32 x = false -> exists r, rs_ynf n x = Some r /\ isnan f32 r = true.
Proof. intros N B NA S Z. rewrite (ynf_eq n x (i32_in _ N) B). rewrite NA, S, Z. cbn [negb andb]. eexists; split; [reflexivity|]. vm_compute. reflexivity. Qed.
Lemma ynf_inf n : is_i32 n -> rs_ynf n (infinity f32 false) = Some 0.
Proof. intros N. rewrite (ynf_eq n _ (i32_in _ N)) by (vm_compute; split; [discriminate|reflexivity]). reflexivity. Qed.
Lemma ynf_zero n x : is_i32 n -> isbits f32 x -> iszero f32 x = true -> rs_ynf n x = Some (infinity f32 (negb ((n <? 0) && Z.odd n))).
Proof.
  intros N B Z. pose proof (zero_cases32 x B Z) as X. set (s := signbit f32 x) in *. clearbody s. subst x. rewrite (ynf_eq n _ (i32_in _ N) B).
  replace (isnan f32 (zero f32 s)) with false by (destruct s; reflexivity). replace (isinf f32 (zero f32 s)) with false by (destruct s; reflexivity). replace (signbit f32 (zero f32 s) && negb (iszero f32 (zero f32 s))) with false by (destruct s; reflexivity). cbv iota.
  destruct (Z.eqb_spec n 0) as [->|N0]; [destruct s; vm_compute; reflexivity|].
  assert (T : (if Z.abs n =? 1 then rs_y1f (zero f32 s) else rs_ynf_pos (Z.abs n - 1) (zero f32 s)) = Some (infinity f32 true)).
  { destruct (Z.eqb_spec (Z.abs n) 1); [destruct s; vm_compute; reflexivity|]. set (m := Z.abs n - 1). clearbody m. unfold rs_ynf_pos.
    
    replace (rs_y0f (zero f32 s)) with (Some (infinity f32 true)) by (destruct s; vm_compute; reflexivity). replace (rs_y1f (zero f32 s)) with (Some (infinity f32 true)) by (destruct s; vm_compute; reflexivity). cbn [bind]. apply run_ret. unfold rs_ynf_fwd.
    change (infinity f32 true =? 0xff800000) with true. rewrite andb_false_r. reflexivity. }
  rewrite T. cbn [bind]. unfold negif. destruct ((n <? 0) && Z.odd n); reflexivity.
Qed.
(** orders 0 and 1 *)
Lemma nan_hi32 x : isbits f32 x -> isnan f32 x = true -> 0x7f800000 <= a32 x /\ a32 x <> 0.
Proof. intros B NA. rewrite (nan32 x B) in NA. apply Z.ltb_lt in NA. split; [lia|lia]. Qed.
Lemma j0f_nan x : isbits f32 x -> isnan f32 x = true -> exists r, rs_j0f x = Some r /\ isnan f32 r = true.
Proof.
  intros B NA. destruct (nan_hi32 x B NA) as [H _]. unfold rs_j0f. words32 x B. cbv zeta. rewrite (proj2 (Z.leb_le _ _) H). eexists; split; [reflexivity|]. apply fdiv_nan. rewrite (fmul_nan f32 x x) by now rewrite NA. apply orb_true_r.
Qed.
Lemma j1f_nan x : isbits f32 x -> isnan f32 x = true -> exists r, rs_j1f x = Some r /\ isnan f32 r = true.
Proof.
  intros B NA. destruct (nan_hi32 x B NA) as [H _]. unfold rs_j1f. words32 x B. cbv zeta. rewrite (proj2 (Z.leb_le _ _) H). eexists; split; [reflexivity|]. apply fdiv_nan. rewrite (fmul_nan f32 x x) by now rewrite NA. apply orb_true_r.
Qed.
Lemma ytest32 x : isbits f32 x -> iszero f32 x = false -> (a32 x =? 0) = false.
Proof.
  intros B Z. rewrite (zer32 x B) in Z. exact Z.
Qed.
Lemma nan_not_zero32 x : isbits f32 x -> isnan f32 x = true -> iszero f32 x = false.
Proof. intros B NA. destruct (nan_hi32 x B NA) as [_ H]. rewrite (zer32 x B). now apply Z.eqb_neq. Qed.
Lemma y0f_bad x : isbits f32 x -> isnan f32 x = true \/ signbit f32 x = true -> iszero f32 x = false -> exists r, rs_y0f x = Some r /\ isnan f32 r = true.
Proof.
  intros B H Z. unfold rs_y0f. cbv zeta. rewrite (sg32 x B), land_a32. rewrite (ytest32 x B Z). destruct (signbit f32 x) eqn:S; cbn [bs].
  - eexists; split; [reflexivity|]. vm_compute. reflexivity.
  - destruct H as [NA|]; [|discriminate]. destruct (nan_hi32 x B NA) as [L _]. change (negb (0 =? 0)) with false. cbv iota. assert (X : a32 x = x) by (destruct (bits32 x B) as [E _]; rewrite S in E; cbn [bs] in E; lia). rewrite X in L.
    rewrite (proj2 (Z.leb_le _ _) L). eexists; split; [reflexivity|]. apply fdiv_nan. rewrite NA. apply orb_true_r.
Qed.
Lemma ynf_0 x : isbits f32 x -> agree f32 (rs_ynf 0 x) (rs_y0f x).
Proof.
  intros B. rewrite (ynf_eq 0 x eq_refl B). destruct (isnan f32 x) eqn:NA.
  - destruct (y0f_bad x B (or_introl NA) (nan_not_zero32 x B NA)) as (r & E & H). exists x, r. split; [reflexivity|]. split; [exact E|]. now right.
  - destruct (iszero f32 x) eqn:Z.
    + rewrite andb_false_r. assert (I : isinf f32 x = false). { rewrite (zer32 x B) in Z. rewrite (inf32 x B). apply Z.eqb_eq in Z. rewrite Z. reflexivity. } rewrite I.
      destruct (y0f_tot x B) as (r & E & _). cbn. rewrite E. exists r, r. split; [reflexivity|]. split; [reflexivity|apply same_refl].
    + destruct (signbit f32 x) eqn:S; cbn [andb negb].
      * destruct (y0f_bad x B (or_intror S) Z) as (r & E & H). eexists; exists r. split; [reflexivity|]. split; [exact E|]. right. split; [vm_compute; reflexivity|exact H].
      * destruct (isinf f32 x) eqn:I.
        -- rewrite (inf_cases32 x B I), S. exists 0, 0. split; [reflexivity|]. split; [vm_compute; reflexivity|apply same_refl].
        -- destruct (y0f_tot x B) as (r & E & _). cbn. rewrite E. exists r, r. split; [reflexivity|]. split; [reflexivity|apply same_refl].
Qed.
Lemma jnf_0 x : isbits f32 x -> agree f32 (rs_jnf 0 x) (rs_j0f x).
Proof.
  intros B. rewrite (jnf_eq 0 x eq_refl B). destruct (j0f_tot x B) as (r & E & _). destruct (isnan f32 x) eqn:NA.
  - destruct (j0f_nan x B NA) as (r' & E' & H). exists x, r'. split; [reflexivity|]. split; [exact E'|]. now right.
  - change (0 =? 0) with true. cbv iota. rewrite E. exists r, r. split; [reflexivity|]. split; [reflexivity|apply same_refl].
Qed.
Lemma y1f_bad x : isbits f32 x -> isnan f32 x = true \/ signbit f32 x = true -> iszero f32 x = false -> exists r, rs_y1f x = Some r /\ isnan f32 r = true.
Proof.
  intros B H Z. unfold rs_y1f. cbv zeta. rewrite (sg32 x B), land_a32. rewrite (ytest32 x B Z). destruct (signbit f32 x) eqn:S; cbn [bs].
  - eexists; split; [reflexivity|]. vm_compute. reflexivity.
  - destruct H as [NA|]; [|discriminate]. destruct (nan_hi32 x B NA) as [L _]. change (negb (0 =? 0)) with false. cbv iota. assert (X : a32 x = x) by (destruct (bits32 x B) as [E _]; rewrite S in E; cbn [bs] in E; lia). rewrite X in L.
    rewrite (proj2 (Z.leb_le _ _) L). eexists; split; [reflexivity|]. apply fdiv_nan. rewrite NA. apply orb_true_r.
Qed.
Lemma ynf_1 x : isbits f32 x -> agree f32 (rs_ynf 1 x) (rs_y1f x).
Proof.
  intros B. rewrite (ynf_eq 1 x eq_refl B). destruct (isnan f32 x) eqn:NA.
  - destruct (y1f_bad x B (or_introl NA) (nan_not_zero32 x B NA)) as (r & E & H). exists x, r. split; [reflexivity|]. split; [exact E|]. now right.
  - destruct (iszero f32 x) eqn:Z.
    + rewrite andb_false_r. assert (I : isinf f32 x = false). { rewrite (zer32 x B) in Z. rewrite (inf32 x B). apply Z.eqb_eq in Z. rewrite Z. reflexivity. } rewrite I.
      destruct (y1f_tot x B) as (r & E & _). cbn. rewrite E. exists r, r. split; [reflexivity|]. split; [reflexivity|apply same_refl].
    + destruct (signbit f32 x) eqn:S; cbn [andb negb].
      * destruct (y1f_bad x B (or_intror S) Z) as (r & E & H). eexists; exists r. split; [reflexivity|]. split; [exact E|]. right. split; [vm_compute; reflexivity|exact H].
      * destruct (isinf f32 x) eqn:I.
        -- rewrite (inf_cases32 x B I), S. exists 0, 0. split; [reflexivity|]. split; [vm_compute; reflexivity|apply same_refl].
        -- destruct (y1f_tot x B) as (r & E & _). cbn. rewrite E. exists r, r. split; [reflexivity|]. split; [reflexivity|apply same_refl].
Qed.
Lemma jnf_1 x : isbits f32 x -> agree f32 (rs_jnf 1 x) (rs_j1f x).
Proof.
  intros B. rewrite (jnf_eq 1 x eq_refl B). destruct (j1f_tot x B) as (r & E & _). destruct (isnan f32 x) eqn:NA.
  - destruct (j1f_nan x B NA) as (r' & E' & H). exists x, r'. split; [reflexivity|]. split; [exact E'|]. now right.
  - change (1 =? 0) with false. cbv iota. change (1 =? 1) with true. cbv iota. rewrite E. exists r, r. split; [reflexivity|]. split; [reflexivity|apply same_refl].
Qed.
