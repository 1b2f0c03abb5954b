(** Interval evaluation: conversions, comparisons, intervals of bit patterns, tactics. *)
From Coq Require Import ZArith Reals Lia Lra Bool.
From Flocq Require Import Core.
From Verif Require Import Base Spec SpecElem Format P_format Ieee P_ieee P_real P_key P_neg M_elib P_elem P_elem2 P_ival.
Open Scope Z_scope.

Definition icvt F G (p : Z * Z) : option (Z * Z) :=
  let r := (fcvt F G (fst p), fcvt F G (snd p)) in if fin2b F p && fin2b G r then Some r else None.
Lemma icvt_ok F G p r x : IN F p x -> icvt F G p = Some r -> IN G r (fcvt F G x).
Proof.
  intros (B & Fx & L) H. unfold icvt in H. cbv zeta in H.
  destruct (fin2b F p && fin2b G _) eqn:E; [|discriminate]. injection H as <-.
  apply andb_prop in E. destruct E as [E1 E2]. apply fin2b_inv in E1. apply fin2b_inv in E2. cbn [fst snd] in E2.
  eapply rounds_mono; try apply fcvt_finite; try tauto.
Qed.
Lemma IN_neg F a b x : IN F (a, b) x -> isbits F a -> isbits F b -> IN F (fneg F b, fneg F a) (fneg F x).
Proof.
  intros (B & Fx & L) Ba Bb. split; [now apply fneg_fields|]. split; [now rewrite fneg_finite|].
  cbn [fst snd] in *. rewrite !fneg_val by assumption. lra.
Qed.

(** ** conversion to integers *)
Lemma to_intZ_finite F lo hi x : lo <= 0 <= hi -> finite F x = true -> to_intZ F lo hi x = clampZ lo hi (Ztrunc (val F x)).
Proof.
  intros H0 Fx. rewrite <- B2R_dec by assumption. rewrite <- finite_dec in Fx. unfold to_intZ.
  destruct (dec F x) as [s|s|s pl e|s m e Hb]; try discriminate.
  - cbn [Binary.B2R]. rewrite Ztrunc_IZR. unfold clampZ. zdec; reflexivity.
  - cbn [Binary.B2R]. unfold F2R. cbn [Fnum Fexp].
    assert (E : forall t, (if s then - t else t) = cond_Zopp s t) by (intros; destruct s; reflexivity).
    rewrite E. f_equal. destruct (Z.leb_spec 0 e) as [L|L].
    + rewrite <- (IZR_Zpower radix2) by assumption. rewrite <- mult_IZR, Ztrunc_IZR.
      rewrite cond_Zopp_mult || idtac. destruct s; cbn [cond_Zopp]; change (Zpower radix2 e) with (2 ^ e); lia.
    + assert (P : (IZR (Z.pos m) * bpow radix2 e)%R = (IZR (Z.pos m) / IZR (2 ^ (- e)))%R).
      { unfold Rdiv. f_equal. rewrite <- (IZR_Zpower radix2 (- e)) || idtac.
        rewrite IZR_pow2 by lia. rewrite bpow_opp, Rinv_inv. reflexivity. }
      assert (D : Zfloor (IZR (Z.pos m) / IZR (2 ^ (- e))) = Z.pos m / 2 ^ (- e)).
      { apply Zfloor_div. pose proof (Z.pow_pos_nonneg 2 (- e)). lia. }
      assert (NN : (0 <= IZR (Z.pos m) / IZR (2 ^ (- e)))%R).
      { apply Rmult_le_pos; [apply IZR_le; lia|]. apply Rlt_le, Rinv_0_lt_compat, IZR_lt. apply Z.pow_pos_nonneg; lia. }
      destruct s; cbn [cond_Zopp].
      * change (Z.neg m) with (- Z.pos m). rewrite opp_IZR, Ropp_mult_distr_l_reverse, Ztrunc_opp, P.
        rewrite Ztrunc_floor by assumption. now rewrite D.
      * rewrite P, Ztrunc_floor by assumption. now rewrite D.
Qed.
Lemma clamp_mono lo hi a b : lo <= hi -> a <= b -> clampZ lo hi a <= clampZ lo hi b.
Proof. intros H L. unfold clampZ. zdec. Qed.
Lemma to_intZ_mono F lo hi p x : lo <= 0 <= hi -> fin2b F p = true -> IN F p x ->
  to_intZ F lo hi (fst p) <= to_intZ F lo hi x <= to_intZ F lo hi (snd p).
Proof.
  intros H0 Fp (B & Fx & L). apply fin2b_inv in Fp. destruct Fp as [F1 F2].
  rewrite !to_intZ_finite by assumption. split; apply clamp_mono; try lia; apply Ztrunc_le; lra.
Qed.
Definition iti32 F (p : Z * Z) : option (Z * Z) := if fin2b F p then Some (to_i32 F (fst p), to_i32 F (snd p)) else None.
Lemma iti32_ok F p r x : IN F p x -> iti32 F p = Some r -> fst r <= to_i32 F x <= snd r.
Proof.
  intros H K. unfold iti32 in K. destruct (fin2b F p) eqn:E; [|discriminate]. injection K as <-. cbn [fst snd].
  unfold to_i32. apply to_intZ_mono; try assumption. lia.
Qed.

(** ** comparisons *)
Lemma flt_IN F p q x y : IN F p x -> IN F q y -> fin2b F p = true -> fin2b F q = true -> flt F (snd p) (fst q) = true -> flt F x y = true.
Proof.
  intros (B & Fx & L) (By & Fy & Ly) H1 H2 H. apply fin2b_inv in H1. apply fin2b_inv in H2. destruct H1, H2.
  rewrite fltR in * by assumption. destruct (Rlt_bool_spec (val F (snd p)) (val F (fst q))); [|discriminate].
  apply Rlt_bool_true. lra.
Qed.
Lemma IN_w F p q x : IN F p x -> fin2b F p && fin2b F q && fle F (fst q) (fst p) && fle F (snd p) (snd q) = true -> IN F q x.
Proof.
  intros I H. repeat match goal with K : _ && _ = true |- _ => apply andb_prop in K; destruct K end.
  repeat match goal with K : fin2b _ _ = true |- _ => apply fin2b_inv in K; destruct K end.
  rewrite fleR in * by assumption.
  destruct (Rle_bool_spec (val F (fst q)) (val F (fst p))); [|discriminate].
  destruct (Rle_bool_spec (val F (snd p)) (val F (snd q))); [|discriminate].
  eapply IN_weaken; eassumption.
Qed.
(** intervals of patterns: positive and negative *)
Lemma IN_pos64 lo hi x : isbits f64 x -> signbit f64 x = false -> 0 <= lo -> lo <= a64 x <= hi -> hi < 0x7ff0000000000000 -> IN f64 (lo, hi) x.
Proof.
  intros B S L H Hh. split; [exact B|]. split. { rewrite fin64 by assumption. apply Z.ltb_lt. lia. }
  cbn [fst snd].
  assert (K : forall a b, 0 <= a <= b -> b < 2 ^ 63 -> (val f64 a <= val f64 b)%R).
  { intros a b Hab Hb. destruct (Z.eq_dec a b) as [->|N]; [lra|]. left. apply key_val_lt.
    destruct (pos64 a) as (A1 & A2 & A3); [lia|]. destruct (pos64 b) as (C1 & C2 & C3); [lia|].
    unfold key. rewrite A3, C3. pose proof (bits_magz f64 a A1) as E1. pose proof (bits_magz f64 b C1) as E2.
    rewrite A3 in E1. rewrite C3 in E2. lia. }
  destruct (bits64 x B) as [E R]. rewrite S in E. cbn [bs] in E. replace x with (a64 x) at 1 4 by lia. split; apply K; lia.
Qed.
Lemma IN_neg64 lo hi x : isbits f64 x -> signbit f64 x = true -> 0 <= lo -> lo <= a64 x <= hi -> hi < 0x7ff0000000000000 ->
  IN f64 (fneg f64 hi, fneg f64 lo) x.
Proof.
  intros B S L H Hh. destruct (fneg_fields f64 x B) as (N1 & N2 & _). rewrite S in N2.
  rewrite <- (fneg_fneg f64 x B). apply IN_neg.
  - apply IN_pos64; try assumption. now rewrite a64_fneg.
  - apply pos64. lia.
  - apply pos64. lia.
Qed.
Lemma IN_pos32 lo hi x : isbits f32 x -> signbit f32 x = false -> 0 <= lo -> lo <= a32 x <= hi -> hi < 0x7f800000 -> IN f32 (lo, hi) x.
Proof.
  intros B S L H Hh. split; [exact B|]. split. { rewrite fin32 by assumption. apply Z.ltb_lt. lia. }
  cbn [fst snd].
  assert (K : forall a b, 0 <= a <= b -> b < 2 ^ 31 -> (val f32 a <= val f32 b)%R).
  { intros a b Hab Hb. destruct (Z.eq_dec a b) as [->|N]; [lra|]. left. apply key_val_lt.
    destruct (pos32 a) as (A1 & A2 & A3); [lia|]. destruct (pos32 b) as (C1 & C2 & C3); [lia|].
    unfold key. rewrite A3, C3. pose proof (bits_magz f32 a A1) as E1. pose proof (bits_magz f32 b C1) as E2.
    rewrite A3 in E1. rewrite C3 in E2. lia. }
  destruct (bits32 x B) as [E R]. rewrite S in E. cbn [bs] in E. replace x with (a32 x) at 1 4 by lia. split; apply K; lia.
Qed.
Lemma IN_neg32 lo hi x : isbits f32 x -> signbit f32 x = true -> 0 <= lo -> lo <= a32 x <= hi -> hi < 0x7f800000 ->
  IN f32 (fneg f32 hi, fneg f32 lo) x.
Proof.
  intros B S L H Hh. destruct (fneg_fields f32 x B) as (N1 & N2 & _). rewrite S in N2.
  rewrite <- (fneg_fneg f32 x B). apply IN_neg.
  - apply IN_pos32; try assumption. now rewrite a32_fneg.
  - apply pos32. lia.
  - apply pos32. lia.
Qed.

(** positive intervals bound the pattern itself *)
Lemma IN_bits F lo hi x : IN F (lo, hi) x -> isbits F lo -> isbits F hi -> signbit F lo = false -> (0 < val F lo)%R -> lo <= x <= hi.
Proof.
  intros (B & Fx & L1 & L2) Bl Bh Sl P. cbn [fst snd] in *.
  assert (Sx : signbit F x = false) by (apply val_pos_sign; lra). assert (Sh : signbit F hi = false) by (apply val_pos_sign; lra).
  assert (K : forall a b, isbits F a -> isbits F b -> signbit F a = false -> signbit F b = false -> (val F a <= val F b)%R -> a <= b).
  { intros a b Ba Bb Sa Sb L. destruct (Z_le_gt_dec a b); [assumption|exfalso].
    assert (key F b < key F a).
    { unfold key. rewrite Sa, Sb. pose proof (bits_magz F a Ba) as E1. pose proof (bits_magz F b Bb) as E2. rewrite Sa in E1. rewrite Sb in E2. lia. }
    apply key_val_lt in H. lra. }
  split; apply K; assumption.
Qed.
Lemma IN_bitsb F lo hi x : IN F (lo, hi) x -> (0 <=? lo) && (lo <? 2 ^ width F) && (0 <=? hi) && (hi <? 2 ^ width F) && negb (signbit F lo) && finite F lo && flt F 0 lo = true ->
  lo <= x <= hi.
Proof.
  intros I H. repeat match goal with K : _ && _ = true |- _ => apply andb_prop in K; destruct K end.
  rewrite Z.leb_le, Z.ltb_lt, negb_true_iff in *. apply (IN_bits F); try assumption; try (split; lia).
  destruct (zero_ok F) as (Z1 & Z2 & Z3).
  match goal with K : flt F 0 lo = true |- _ => rewrite fltR, Z3 in K by assumption; destruct (Rlt_bool_spec 0 (val F lo)); [assumption|discriminate] end.
Qed.

(** ** tactics *)
Ltac icomp := lazymatch goal with |- ?t = Some _ =>
  let v := eval vm_compute in t in
  lazymatch v with Some ?w => exact (@eq_refl (option (Z * Z)) (Some w) <: t = Some w) end end.
Ltac solve_in := lazymatch goal with
  | |- IN ?F _ (fadd ?F ?a ?b) => eapply iadd_ok; [solve_in|solve_in|icomp]
  | |- IN ?F _ (fsub ?F ?a ?b) => eapply isub_ok; [solve_in|solve_in|icomp]
  | |- IN ?F _ (fmul ?F ?a ?a) => eapply isqr_ok; [solve_in|icomp]
  | |- IN ?F _ (fmul ?F ?a ?b) => eapply imul_ok; [solve_in|solve_in|icomp]
  | |- IN ?F _ (fdiv ?F ?a ?b) => eapply idivp_ok; [solve_in|solve_in|icomp]
  | |- IN ?F _ (fcvt _ ?F ?a) => eapply icvt_ok; [solve_in|icomp]
  | |- IN ?F _ (of_int ?F ?n) => eapply iint_ok; [eassumption|icomp]
  | |- IN ?F _ ?x => first [eassumption | apply (IN_const F x); [vm_compute; split; [discriminate|reflexivity]|vm_compute; reflexivity] ]
  end.
(** [ivl e H] bounds the expression [e] *)
Ltac ivl F e H := let p := fresh "p" in evar (p : (Z * Z)%type); assert (H : IN F p e);
  [subst p; solve_in | let q := eval unfold p in p in change p with q in H; clear p].
Ltac inw H := apply (IN_w _ _ _ _ H); vm_compute; reflexivity.
Ltac inconst := match goal with |- IN ?F _ ?c => apply (IN_w F (c, c)); [apply IN_const; [vm_compute; split; [discriminate|reflexivity]|vm_compute; reflexivity]|vm_compute; reflexivity] end.
