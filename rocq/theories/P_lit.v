(** Values of literal bit patterns, and comparisons of values as comparisons of patterns. *)
From Coq Require Import ZArith Reals Lia Lra Bool List.
From Flocq Require Import Core.
From Verif Require Import Base Spec SpecElem Format P_format Ieee P_ieee P_real P_key P_neg P_elem.
Open Scope Z_scope.

Definition litb (F : fmt) (c n d : Z) : bool :=
  let e := expf F c in let m := sigf F c in let k := Z.max e 1 - bias F - mw F in
  let M := (if e =? 0 then m else 2 ^ mw F + m) in let M := if signbit F c then - M else M in
  (0 <? d) && (if k <? 0 then n * 2 ^ (- k) =? M * d else n =? M * 2 ^ k * d).
Lemma val_lit F c n d : litb F c n d = true -> val F c = (IZR n / IZR d)%R.
Proof.
  unfold litb. cbv zeta. rewrite andb_true_iff, Z.ltb_lt. intros [D H]. unfold val.
  assert (D' : (IZR d <> 0)%R) by (apply not_0_IZR; lia).
  set (e := expf F c) in *. set (m := sigf F c) in *. set (k := Z.max e 1 - bias F - mw F) in *.
  assert (V : mag_of F e m = (IZR (if e =? 0 then m else 2 ^ mw F + m) * bpow radix2 k)%R).
  { unfold mag_of. pose proof (fields_range F c) as [_ Re]. fold e in Re. destruct (Z.eqb_spec e 0) as [E|E].
    - unfold k. now replace (Z.max e 1) with 1 by lia.
    - unfold k. now replace (Z.max e 1) with e by lia. }
  assert (W : sval (signbit F c) (mag_of F e m) =
     (IZR (if signbit F c then - (if e =? 0 then m else 2 ^ mw F + m) else if e =? 0 then m else 2 ^ mw F + m) * bpow radix2 k)%R).
  { rewrite V. destruct (signbit F c); unfold sval; [rewrite opp_IZR; ring|reflexivity]. }
  rewrite W. clear W V.
  set (M := if signbit F c then _ else _) in *. clearbody M k.
  destruct (Z.ltb_spec k 0) as [K|K].
  - apply Z.eqb_eq in H. assert (P : (IZR (2 ^ (- k)) * bpow radix2 k = 1)%R).
    { rewrite IZR_pow2 by lia. rewrite <- bpow_plus. now replace (- k + k) with 0 by lia. }
    apply (f_equal IZR) in H. rewrite !mult_IZR in H. apply Rmult_eq_reg_r with (IZR d); [|assumption]. unfold Rdiv.
    rewrite Rmult_assoc, (Rmult_assoc (IZR n)), Rinv_l by assumption. rewrite (Rmult_comm (bpow _ _)), <- Rmult_assoc, <- H.
    rewrite Rmult_assoc, P. reflexivity.
  - apply Z.eqb_eq in H. subst n. rewrite !mult_IZR, IZR_pow2 by lia. field. exact D'.
Qed.
Ltac lit := apply val_lit; vm_compute; reflexivity.
Lemma one64 : val f64 0x3ff0000000000000 = 1%R. Proof. replace 1%R with (1 / 1)%R by lra. lit. Qed.
Lemma one32 : val f32 0x3f800000 = 1%R. Proof. replace 1%R with (1 / 1)%R by lra. lit. Qed.
Lemma mone64 : val f64 0xbff0000000000000 = (-1)%R. Proof. replace (-1)%R with (-1 / 1)%R by lra. lit. Qed.
Lemma mone32 : val f32 0xbf800000 = (-1)%R. Proof. replace (-1)%R with (-1 / 1)%R by lra. lit. Qed.
Lemma zero64 : val f64 0 = 0%R. Proof. replace 0%R with (0 / 1)%R by lra. lit. Qed.
Lemma zero32 : val f32 0 = 0%R. Proof. replace 0%R with (0 / 1)%R by lra. lit. Qed.

Lemma key64 x : isbits f64 x -> key f64 x = if signbit f64 x then - a64 x else a64 x.
Proof. intros B. unfold key, magz. rewrite (magz64 x B). reflexivity. Qed.
Lemma key32 x : isbits f32 x -> key f32 x = if signbit f32 x then - a32 x else a32 x.
Proof. intros B. unfold key, magz. rewrite (magz32 x B). reflexivity. Qed.
(** A comparison of values read off the patterns. *)
Lemma vlt64 x c : isbits f64 x -> (val f64 x < val f64 c)%R -> (if signbit f64 x then - a64 x else a64 x) < key f64 c.
Proof. intros B H. rewrite <- key64 by assumption. now apply key_val_lt. Qed.
Lemma vgt64 x c : isbits f64 x -> (val f64 c < val f64 x)%R -> key f64 c < (if signbit f64 x then - a64 x else a64 x).
Proof. intros B H. rewrite <- key64 by assumption. now apply key_val_lt. Qed.
Lemma vlt32 x c : isbits f32 x -> (val f32 x < val f32 c)%R -> (if signbit f32 x then - a32 x else a32 x) < key f32 c.
Proof. intros B H. rewrite <- key32 by assumption. now apply key_val_lt. Qed.
Lemma vgt32 x c : isbits f32 x -> (val f32 c < val f32 x)%R -> key f32 c < (if signbit f32 x then - a32 x else a32 x).
Proof. intros B H. rewrite <- key32 by assumption. now apply key_val_lt. Qed.

(** The domains of the elementary functions. *)
Lemma neg64 x : isbits f64 x -> finite f64 x = true -> (val f64 x < 0)%R -> signbit f64 x = true /\ 0 < a64 x < 0x7ff0000000000000.
Proof.
  intros B Fx H. rewrite <- zero64 in H. apply vlt64 in H; [|assumption]. change (key f64 0) with 0 in H.
  rewrite fin64, Z.ltb_lt in Fx by assumption. destruct (bits64 x B) as [_ R]. destruct (signbit f64 x); [split; [reflexivity|lia]|lia].
Qed.
Lemma neg32 x : isbits f32 x -> finite f32 x = true -> (val f32 x < 0)%R -> signbit f32 x = true /\ 0 < a32 x < 0x7f800000.
Proof.
  intros B Fx H. rewrite <- zero32 in H. apply vlt32 in H; [|assumption]. change (key f32 0) with 0 in H.
  rewrite fin32, Z.ltb_lt in Fx by assumption. destruct (bits32 x B) as [_ R]. destruct (signbit f32 x); [split; [reflexivity|lia]|lia].
Qed.
Lemma below_m1_64 x : isbits f64 x -> finite f64 x = true -> (val f64 x < -1)%R -> signbit f64 x = true /\ 0x3ff0000000000000 < a64 x < 0x7ff0000000000000.
Proof.
  intros B Fx H. rewrite <- mone64 in H. apply vlt64 in H; [|assumption]. change (key f64 0xbff0000000000000) with (- 0x3ff0000000000000) in H.
  rewrite fin64, Z.ltb_lt in Fx by assumption. destruct (bits64 x B) as [_ R]. destruct (signbit f64 x); [split; [reflexivity|lia]|lia].
Qed.
Lemma below_m1_32 x : isbits f32 x -> finite f32 x = true -> (val f32 x < -1)%R -> signbit f32 x = true /\ 0x3f800000 < a32 x < 0x7f800000.
Proof.
  intros B Fx H. rewrite <- mone32 in H. apply vlt32 in H; [|assumption]. change (key f32 0xbf800000) with (- 0x3f800000) in H.
  rewrite fin32, Z.ltb_lt in Fx by assumption. destruct (bits32 x B) as [_ R]. destruct (signbit f32 x); [split; [reflexivity|lia]|lia].
Qed.
Lemma above1_64 x : isbits f64 x -> finite f64 x = true -> (1 < Rabs (val f64 x))%R -> 0x3ff0000000000000 < a64 x < 0x7ff0000000000000.
Proof.
  intros B Fx H. destruct (Rle_or_lt 0 (val f64 x)) as [P|P].
  - rewrite Rabs_pos_eq in H by assumption. rewrite <- one64 in H. apply vgt64 in H; [|assumption]. change (key f64 0x3ff0000000000000) with 0x3ff0000000000000 in H.
    rewrite fin64, Z.ltb_lt in Fx by assumption. destruct (bits64 x B) as [_ R]. destruct (signbit f64 x); lia.
  - rewrite Rabs_left in H by assumption. apply below_m1_64; try assumption; lra.
Qed.
Lemma above1_32 x : isbits f32 x -> finite f32 x = true -> (1 < Rabs (val f32 x))%R -> 0x3f800000 < a32 x < 0x7f800000.
Proof.
  intros B Fx H. destruct (Rle_or_lt 0 (val f32 x)) as [P|P].
  - rewrite Rabs_pos_eq in H by assumption. rewrite <- one32 in H. apply vgt32 in H; [|assumption]. change (key f32 0x3f800000) with 0x3f800000 in H.
    rewrite fin32, Z.ltb_lt in Fx by assumption. destruct (bits32 x B) as [_ R]. destruct (signbit f32 x); lia.
  - rewrite Rabs_left in H by assumption. apply below_m1_32; try assumption; lra.
Qed.
