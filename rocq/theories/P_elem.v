(** Toolkit for the elementary functions: words of a bit pattern, classification by magnitude. *)
From Coq Require Import ZArith Reals Lia Lra Bool List.
From Flocq Require Import Core.
From Verif Require Import Base Spec Format P_format Ieee P_ieee P_real P_key P_neg M_elib.
Open Scope Z_scope.

Definition bs (b : bool) : Z := if b then 1 else 0.

(** ** f64 *)
Definition a64 (x : Z) : Z := x mod 2 ^ 63.
Lemma bits64 x : isbits f64 x -> x = bs (signbit f64 x) * 2 ^ 63 + a64 x /\ 0 <= a64 x < 2 ^ 63.
Proof.
  intros H. unfold isbits, width, signbit, a64 in *. cbn [mw ew f64] in *.
  change (52 + 11 + 1) with 64 in H. change (52 + 11) with 63.
  change (2 ^ 64) with (2 * 2 ^ 63) in H.
  pose proof (Z.mod_pos_bound x (2 ^ 63)). pose proof (Z.div_mod x (2 ^ 63)).
  destruct (Z.leb_spec (2 ^ 63) x); unfold bs.
  - assert (x / 2 ^ 63 = 1) by (symmetry; apply (Z.div_unique x (2 ^ 63) 1 (x - 2 ^ 63)); lia). lia.
  - rewrite (Z.mod_small x) by lia. lia.
Qed.
Lemma land_a64 x : Z.land x 0x7fffffffffffffff = a64 x.
Proof. change 0x7fffffffffffffff with (2 ^ 63 - 1). apply land_pow2m1. lia. Qed.
Lemma hw64 x : isbits f64 x -> to_u 32 (Z.shiftr x 32) = bs (signbit f64 x) * 2 ^ 31 + a64 x / 2 ^ 32.
Proof.
  intros H. destruct (bits64 x H) as [E R]. rewrite E at 1. unfold to_u.
  rewrite Z.shiftr_div_pow2 by lia.
  replace (bs (signbit f64 x) * 2 ^ 63 + a64 x) with (a64 x + (bs (signbit f64 x) * 2 ^ 31) * 2 ^ 32) by lia.
  rewrite Z.div_add by lia.
  assert (0 <= a64 x / 2 ^ 32 < 2 ^ 31).
  { split; [apply Z.div_pos; lia|apply Z.div_lt_upper_bound; lia]. }
  rewrite Z.mod_small; [lia|]. unfold bs; destruct (signbit f64 x); lia.
Qed.
Lemma a64_hi x : isbits f64 x -> 0 <= a64 x / 2 ^ 32 < 2 ^ 31.
Proof.
  intros H. destruct (bits64 x H) as [_ R].
  split; [apply Z.div_pos; lia|apply Z.div_lt_upper_bound; lia].
Qed.
Lemma land_hw b a : 0 <= a < 2 ^ 31 -> Z.land (bs b * 2 ^ 31 + a) 0x7fffffff = a.
Proof.
  intros H. change 0x7fffffff with (2 ^ 31 - 1). rewrite land_pow2m1 by lia.
  replace (bs b * 2 ^ 31 + a) with (a + bs b * 2 ^ 31) by lia.
  rewrite Z.mod_add by lia. apply Z.mod_small; lia.
Qed.
Lemma ix64 x : isbits f64 x -> Z.land (to_u 32 (Z.shiftr x 32)) 0x7fffffff = a64 x / 2 ^ 32.
Proof. intros H. rewrite hw64 by assumption. apply land_hw. now apply a64_hi. Qed.
Lemma shr31 b a : 0 <= a < 2 ^ 31 -> Z.shiftr (bs b * 2 ^ 31 + a) 31 = bs b.
Proof.
  intros H. rewrite Z.shiftr_div_pow2 by lia.
  replace (bs b * 2 ^ 31 + a) with (a + bs b * 2 ^ 31) by lia.
  rewrite Z.div_add by lia. rewrite (Z.div_small a) by lia. lia.
Qed.
Lemma sg64 x : isbits f64 x -> Z.shiftr x 63 = bs (signbit f64 x).
Proof.
  intros H. destruct (bits64 x H) as [E R]. rewrite E at 1. rewrite Z.shiftr_div_pow2 by lia.
  rewrite Z.add_comm, Z.div_add by lia. rewrite Z.div_small by lia. lia.
Qed.
Lemma magz64 x : isbits f64 x -> a64 x = expf f64 x * 2 ^ 52 + sigf f64 x.
Proof.
  intros H. destruct (bits64 x H) as [E R]. pose proof (fields_split f64 x H) as S.
  unfold mkbits in S. cbn [mw ew f64] in S. change (52 + 11) with 63 in S.
  unfold bs in E. destruct (signbit f64 x); lia.
Qed.
Lemma nan64 x : isbits f64 x -> isnan f64 x = (0x7ff0000000000000 <? a64 x).
Proof.
  intros H. pose proof (magz64 x H) as M. pose proof (fields_range f64 x) as [R1 R2].
  unfold isnan. cbn [mw ew f64] in *. change (2 ^ 11) with 2048 in *. change (2 ^ 52) with 4503599627370496 in *.
  destruct (Z.eqb_spec (expf f64 x) (2048 - 1)), (Z.eqb_spec (sigf f64 x) 0),
    (Z.ltb_spec 0x7ff0000000000000 (a64 x)); cbn [andb negb]; try reflexivity; exfalso; lia.
Qed.
Lemma inf64 x : isbits f64 x -> isinf f64 x = (a64 x =? 0x7ff0000000000000).
Proof.
  intros H. pose proof (magz64 x H) as M. pose proof (fields_range f64 x) as [R1 R2].
  unfold isinf. cbn [mw ew f64] in *. change (2 ^ 11) with 2048 in *. change (2 ^ 52) with 4503599627370496 in *.
  destruct (Z.eqb_spec (expf f64 x) (2048 - 1)), (Z.eqb_spec (sigf f64 x) 0),
    (Z.eqb_spec (a64 x) 0x7ff0000000000000); cbn [andb negb]; try reflexivity; exfalso; lia.
Qed.
Lemma fin64 x : isbits f64 x -> finite f64 x = (a64 x <? 0x7ff0000000000000).
Proof.
  intros H. pose proof (magz64 x H) as M. pose proof (fields_range f64 x) as [R1 R2].
  unfold finite. cbn [mw ew f64] in *. change (2 ^ 11) with 2048 in *. change (2 ^ 52) with 4503599627370496 in *.
  destruct (Z.ltb_spec (expf f64 x) (2048 - 1)), (Z.ltb_spec (a64 x) 0x7ff0000000000000);
    try reflexivity; exfalso; lia.
Qed.
Lemma zer64 x : isbits f64 x -> iszero f64 x = (a64 x =? 0).
Proof.
  intros H. pose proof (magz64 x H) as M. pose proof (fields_range f64 x) as [R1 R2].
  unfold iszero. cbn [mw ew f64] in *. change (2 ^ 11) with 2048 in *. change (2 ^ 52) with 4503599627370496 in *.
  destruct (Z.eqb_spec (expf f64 x) 0), (Z.eqb_spec (sigf f64 x) 0),
    (Z.eqb_spec (a64 x) 0); cbn [andb negb]; try reflexivity; exfalso; lia.
Qed.
Lemma bits64_intro b a : 0 <= a < 2 ^ 63 -> isbits f64 (bs b * 2 ^ 63 + a) /\
  signbit f64 (bs b * 2 ^ 63 + a) = b /\ a64 (bs b * 2 ^ 63 + a) = a.
Proof.
  intros H. unfold isbits, width, signbit, a64. cbn [mw ew f64].
  change (52 + 11 + 1) with 64. change (52 + 11) with 63. change (2 ^ 64) with (2 * 2 ^ 63).
  unfold bs; destruct b.
  - repeat split; try lia.
    replace (1 * 2 ^ 63 + a) with (a + 1 * 2 ^ 63) by lia. rewrite Z.mod_add by lia. now apply Z.mod_small.
  - repeat split; try lia. rewrite Z.mul_0_l, Z.add_0_l. now apply Z.mod_small.
Qed.
Lemma fneg64 x : isbits f64 x -> fneg f64 x = bs (negb (signbit f64 x)) * 2 ^ 63 + a64 x.
Proof.
  intros H. destruct (fneg_fields f64 x H) as (B & S & E & G).
  destruct (bits64 _ B) as [Q _]. rewrite Q, S. f_equal.
  rewrite (magz64 _ B), (magz64 _ H), E, G. reflexivity.
Qed.
Lemma a64_fneg x : isbits f64 x -> a64 (fneg f64 x) = a64 x.
Proof.
  intros H. destruct (fneg_fields f64 x H) as (B & S & E & G).
  rewrite (magz64 _ B), (magz64 _ H), E, G. reflexivity.
Qed.

(** ** f32 *)
Definition a32 (x : Z) : Z := x mod 2 ^ 31.
Lemma bits32 x : isbits f32 x -> x = bs (signbit f32 x) * 2 ^ 31 + a32 x /\ 0 <= a32 x < 2 ^ 31.
Proof.
  intros H. unfold isbits, width, signbit, a32 in *. cbn [mw ew f32] in *.
  change (23 + 8 + 1) with 32 in H. change (23 + 8) with 31.
  change (2 ^ 32) with (2 * 2 ^ 31) in H.
  pose proof (Z.mod_pos_bound x (2 ^ 31)). pose proof (Z.div_mod x (2 ^ 31)).
  destruct (Z.leb_spec (2 ^ 31) x); unfold bs.
  - assert (x / 2 ^ 31 = 1) by (symmetry; apply (Z.div_unique x (2 ^ 31) 1 (x - 2 ^ 31)); lia). lia.
  - rewrite (Z.mod_small x) by lia. lia.
Qed.
Lemma land_a32 x : Z.land x 0x7fffffff = a32 x.
Proof. change 0x7fffffff with (2 ^ 31 - 1). apply land_pow2m1. lia. Qed.
Lemma sg32 x : isbits f32 x -> Z.shiftr x 31 = bs (signbit f32 x).
Proof.
  intros H. destruct (bits32 x H) as [E R]. rewrite E at 1. now apply shr31.
Qed.
Lemma magz32 x : isbits f32 x -> a32 x = expf f32 x * 2 ^ 23 + sigf f32 x.
Proof.
  intros H. destruct (bits32 x H) as [E R]. pose proof (fields_split f32 x H) as S.
  unfold mkbits in S. cbn [mw ew f32] in S. change (23 + 8) with 31 in S.
  unfold bs in E. destruct (signbit f32 x); lia.
Qed.
Lemma nan32 x : isbits f32 x -> isnan f32 x = (0x7f800000 <? a32 x).
Proof.
  intros H. pose proof (magz32 x H) as M. pose proof (fields_range f32 x) as [R1 R2].
  unfold isnan. cbn [mw ew f32] in *. change (2 ^ 8) with 256 in *. change (2 ^ 23) with 8388608 in *.
  destruct (Z.eqb_spec (expf f32 x) (256 - 1)), (Z.eqb_spec (sigf f32 x) 0),
    (Z.ltb_spec 0x7f800000 (a32 x)); cbn [andb negb]; try reflexivity; exfalso; lia.
Qed.
Lemma inf32 x : isbits f32 x -> isinf f32 x = (a32 x =? 0x7f800000).
Proof.
  intros H. pose proof (magz32 x H) as M. pose proof (fields_range f32 x) as [R1 R2].
  unfold isinf. cbn [mw ew f32] in *. change (2 ^ 8) with 256 in *. change (2 ^ 23) with 8388608 in *.
  destruct (Z.eqb_spec (expf f32 x) (256 - 1)), (Z.eqb_spec (sigf f32 x) 0),
    (Z.eqb_spec (a32 x) 0x7f800000); cbn [andb negb]; try reflexivity; exfalso; lia.
Qed.
Lemma fin32 x : isbits f32 x -> finite f32 x = (a32 x <? 0x7f800000).
Proof.
  intros H. pose proof (magz32 x H) as M. pose proof (fields_range f32 x) as [R1 R2].
  unfold finite. cbn [mw ew f32] in *. change (2 ^ 8) with 256 in *. change (2 ^ 23) with 8388608 in *.
  destruct (Z.ltb_spec (expf f32 x) (256 - 1)), (Z.ltb_spec (a32 x) 0x7f800000);
    try reflexivity; exfalso; lia.
Qed.
Lemma zer32 x : isbits f32 x -> iszero f32 x = (a32 x =? 0).
Proof.
  intros H. pose proof (magz32 x H) as M. pose proof (fields_range f32 x) as [R1 R2].
  unfold iszero. cbn [mw ew f32] in *. change (2 ^ 8) with 256 in *. change (2 ^ 23) with 8388608 in *.
  destruct (Z.eqb_spec (expf f32 x) 0), (Z.eqb_spec (sigf f32 x) 0),
    (Z.eqb_spec (a32 x) 0); cbn [andb negb]; try reflexivity; exfalso; lia.
Qed.
Lemma bits32_intro b a : 0 <= a < 2 ^ 31 -> isbits f32 (bs b * 2 ^ 31 + a) /\
  signbit f32 (bs b * 2 ^ 31 + a) = b /\ a32 (bs b * 2 ^ 31 + a) = a.
Proof.
  intros H. unfold isbits, width, signbit, a32. cbn [mw ew f32].
  change (23 + 8 + 1) with 32. change (23 + 8) with 31. change (2 ^ 32) with (2 * 2 ^ 31).
  unfold bs; destruct b.
  - repeat split; try lia.
    replace (1 * 2 ^ 31 + a) with (a + 1 * 2 ^ 31) by lia. rewrite Z.mod_add by lia. now apply Z.mod_small.
  - repeat split; try lia. rewrite Z.mul_0_l, Z.add_0_l. now apply Z.mod_small.
Qed.
Lemma fneg32 x : isbits f32 x -> fneg f32 x = bs (negb (signbit f32 x)) * 2 ^ 31 + a32 x.
Proof.
  intros H. destruct (fneg_fields f32 x H) as (B & S & E & G).
  destruct (bits32 _ B) as [Q _]. rewrite Q, S. f_equal.
  rewrite (magz32 _ B), (magz32 _ H), E, G. reflexivity.
Qed.
Lemma a32_fneg x : isbits f32 x -> a32 (fneg f32 x) = a32 x.
Proof.
  intros H. destruct (fneg_fields f32 x H) as (B & S & E & G).
  rewrite (magz32 _ B), (magz32 _ H), E, G. reflexivity.
Qed.
