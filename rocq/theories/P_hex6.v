(** The hexadecimal float parser: acceptance, special words, exact parsing, absence of panics. *)
From Coq Require Import ZArith Reals Lia Lra Bool List.
From Flocq Require Import Core.
From Verif Require Import Base Spec SpecHex Format Ieee P_format P_ieee P_real P_near M_hex P_hex P_hex2 P_hex3 P_hex4 P_hex5.
Import ListNotations.
Open Scope Z_scope.

(** ** Acceptance *)

Ltac bstep E := match type of E with bind ?o _ = _ => destruct o eqn:?; cbn [bind] in E; [|discriminate E] end.

Lemma finite_err b bits p r e : config bits p -> parse_finite b bits p r = Some (Err e) -> parse_hex b = Some (Err e).
Proof.
  intros C E. destruct (finite_head b bits p r C) as (F1 & F2 & F3).
  destruct (parse_hex b) as [[[sig exp]|e']|] eqn:H.
  - destruct (Z.eq_dec sig 0) as [-> |S]; [rewrite (F2 exp eq_refl) in E; discriminate|]. exfalso. clear F1 F2 F3.
    unfold parse_finite in E. do 7 bstep E. rewrite H in E. cbn [bind] in E.
    rewrite (proj2 (Z.eqb_neq _ _)) in E by exact S. do 5 bstep E.
    bstep E. destruct p0 as [sg st]. do 3 bstep E.
    match type of E with (if ?c then _ else _) = _ => destruct c; [discriminate E|] end.
    do 4 bstep E.
    assert (OV : forall o : option Z, (let* x := o in Some (Ok (x, st_with (st_with st ST_OVERFLOW) ST_INEXACT))) <> Some (Err e)).
    { intros [x|]; cbn; discriminate. }
    match type of E with (match ?o with Some _ => _ | None => _ end) = _ => destruct o end.
    + match type of E with (if ?c then _ else _) = _ => destruct c end; [discriminate E|]. exact (OV _ E).
    + exact (OV _ E).
  - rewrite (F1 e' eq_refl) in E. congruence.
  - rewrite (F3 eq_refl) in E. discriminate.
Qed.
Lemma finite_okk b bits p r x : config bits p -> parse_finite b bits p r = Some (Ok x) -> exists y, parse_hex b = Some (Ok y).
Proof.
  intros C E. destruct (finite_head b bits p r C) as (F1 & F2 & F3).
  destruct (parse_hex b) as [[y|e']|]; [now exists y|rewrite (F1 e' eq_refl) in E; discriminate|rewrite (F3 eq_refl) in E; discriminate].
Qed.

Lemma letter c lo : (c =? lo) || (c =? lo - 32) = true <-> same_letter c lo.
Proof. unfold same_letter. rewrite orb_true_iff, !Z.eqb_eq. reflexivity. Qed.

Definition is_word (b : list Z) (l0 l1 l2 : Z) : bool :=
  match b with
  | [c0; c1; c2] => ((c0 =? l0) || (c0 =? l0 - 32)) && ((c1 =? l1) || (c1 =? l1 - 32)) && ((c2 =? l2) || (c2 =? l2 - 32))
  | _ => false
  end.
Lemma rest_eq neg b bits p r : rest_any neg b bits p r =
  if is_word b 105 110 102 then Some (finish neg (2 ^ (bits - 1)) (Ok (2 ^ (bits - 1) - 2 ^ (p - 1) - 2 ^ (p - 1), 0)))
  else if is_word b 110 97 110 then Some (finish neg (2 ^ (bits - 1)) (Ok (2 ^ (bits - 1) - 2 ^ (p - 1), 0)))
  else match b with
    | c0 :: c1 :: rest =>
      if (c0 =? 48) && ((c1 =? 120) || (c1 =? 88)) then
        let* r := parse_finite rest bits p (fliprnd neg r) in Some (finish neg (2 ^ (bits - 1)) r)
      else Some (Err NoIndicator)
    | _ => Some (Err NoIndicator)
    end.
Proof. unfold rest_any, is_word. destruct b as [|c0 [|c1 [|c2 [|c3 rest]]]]; reflexivity. Qed.

Lemma is_word_iff b l0 l1 l2 : is_word b l0 l1 l2 = true <->
  exists c0 c1 c2, b = [c0; c1; c2] /\ same_letter c0 l0 /\ same_letter c1 l1 /\ same_letter c2 l2.
Proof.
  unfold is_word. split.
  - intros H. destruct b as [|c0 [|c1 [|c2 [|c3 rest]]]]; try discriminate. rewrite !andb_true_iff, !letter in H. exists c0, c1, c2. tauto.
  - intros (c0 & c1 & c2 & -> & H0 & H1 & H2). rewrite !andb_true_iff, !letter. tauto.
Qed.

Lemma word_strip s neg l0 l1 l2 : 77 < l0 -> (word s neg l0 l1 l2 <-> is_word (strip_sign s) l0 l1 l2 = true /\ starts_minus s = neg).
Proof.
  intros L. rewrite is_word_iff. unfold word. split.
  - intros (sg & c0 & c1 & c2 & -> & Hs & A & B & C). assert (c0 <> 43 /\ c0 <> 45) by (unfold same_letter in A; lia).
    destruct Hs; cbn [app strip_sign starts_minus]; rewrite ?(proj2 (Z.eqb_neq c0 _)) by tauto; split; try reflexivity; exists c0, c1, c2; tauto.
  - intros [(c0 & c1 & c2 & E & A & B & C) <-]. destruct (sign_split s) as (sg & S1 & S2).
    exists sg, c0, c1, c2. rewrite <- E. split; [exact S1|]. split; [exact S2|]. tauto.
Qed.

Theorem accept_sound s bits p r x : config bits p -> parse_any s bits p r = Some (Ok x) -> accepted s.
Proof.
  intros C E. rewrite parse_any_eq, rest_eq in E by exact C. exists (starts_minus s).
  destruct (is_word (strip_sign s) 105 110 102) eqn:W1; [right; left; apply word_strip; [lia|now split]|].
  destruct (is_word (strip_sign s) 110 97 110) eqn:W2; [right; right; apply word_strip; [lia|now split]|].
  left. destruct (sign_split s) as (sg & S1 & S2).
  destruct (strip_sign s) as [|c0 [|c1 rest]]; try discriminate.
  destruct ((c0 =? 48) && ((c1 =? 120) || (c1 =? 88))) eqn:I; [|discriminate].
  rewrite andb_true_iff, orb_true_iff, !Z.eqb_eq in I. destruct I as [-> I].
  destruct (parse_finite rest bits p _) as [[y|e]|] eqn:P; cbn [bind finish] in E; try discriminate.
  destruct (finite_okk _ _ _ _ _ C P) as (y' & H). destruct (parse_hex_sound _ _ H) as (N & k & D & ng & Hb).
  exists N, k, D, ng, sg, c1, rest. tauto.
Qed.

Theorem accept_complete s bits p r e : config bits p -> parse_any s bits p r = Some (Err e) -> ~ accepted s.
Proof.
  intros C E (neg & A). rewrite parse_any_eq, rest_eq in E by exact C.
  destruct A as [(N & k & D & ng & sg & xc & body & -> & Hs & Hx & Hb)|[A|A]].
  - destruct (strip_lit sg neg xc body Hs) as [E1 E2]. rewrite E1, E2 in E.
    assert (W1 : is_word (48 :: xc :: body) 105 110 102 = false) by (destruct body as [|? [|? ?]]; reflexivity).
    assert (W2 : is_word (48 :: xc :: body) 110 97 110 = false) by (destruct body as [|? [|? ?]]; reflexivity).
    rewrite W1, W2 in E.
    assert (X : (48 =? 48) && ((xc =? 120) || (xc =? 88)) = true) by (destruct Hx as [-> | ->]; reflexivity). rewrite X in E.
    destruct (parse_finite body bits p _) as [[[y st]|e']|] eqn:P; cbn [bind finish] in E; try discriminate.
    apply (finite_err _ _ _ _ _ C) in P. exact (parse_hex_no_err _ _ _ _ _ Hb _ P).
  - apply word_strip in A; [|lia]. destruct A as [-> _] in E. discriminate E.
  - apply word_strip in A; [|lia]. destruct A as [A _]. rewrite A in E.
    destruct (is_word (strip_sign s) 105 110 102); discriminate E.
Qed.

(** ** [inf] and [nan] *)
Lemma parse_inf F s neg r : inf_word s neg -> parse_any s (width F) (mw F) r = Some (Ok (infinity F neg, 0)).
Proof.
  intros H. apply word_strip in H; [|lia]. destruct H as [H E]. rewrite parse_any_eq, rest_eq, H, E by apply config_F. cbn [finish].
  do 3 f_equal. pose proof (fmt_facts F) as FF. pose proof (pow2_pos (mw F) ltac:(lia)) as P. pose proof (bias_facts F) as (BF & _ & BF2).
  assert (V : 2 ^ (width F - 1) - 2 ^ (mw F - 1) - 2 ^ (mw F - 1) = (2 ^ ew F - 1) * 2 ^ mw F).
  { replace (width F - 1) with (ew F + mw F) by (unfold width; lia). rewrite pow2_split by lia.
    replace (mw F) with (1 + (mw F - 1)) at 4 by lia. replace (mw F) with (1 + (mw F - 1)) at 1 by lia. rewrite !pow2_split by lia. lia. }
  rewrite V. destruct (signed_bits F neg ((2 ^ ew F - 1) * 2 ^ mw F)) as (-> & _).
  { split; [apply Z.mul_nonneg_nonneg; lia|apply Z.mul_lt_mono_pos_r; lia]. }
  rewrite Z.div_mul, Z.mod_mul by lia. reflexivity.
Qed.
Lemma parse_nan F s neg r : nan_word s neg ->
  exists y, parse_any s (width F) (mw F) r = Some (Ok (y, 0)) /\ isbits F y /\ isnan F y = true /\ signbit F y = neg.
Proof.
  intros H. apply word_strip in H; [|lia]. destruct H as [H E]. rewrite parse_any_eq, rest_eq, H, E by apply config_F.
  assert (W : is_word (strip_sign s) 105 110 102 = false).
  { apply is_word_iff in H. destruct H as (c0 & c1 & c2 & -> & [-> | ->] & _); reflexivity. }
  rewrite W. cbn [finish]. eexists. split; [reflexivity|].
  pose proof (fmt_facts F) as FF. pose proof (pow2_pos (mw F) ltac:(lia)) as P. pose proof (bias_facts F) as (BF & _ & BF2).
  pose proof (pow2_pos (mw F - 1) ltac:(lia)) as P1.
  assert (P2 : 2 ^ mw F = 2 * 2 ^ (mw F - 1)) by (rewrite <- Z.pow_succ_r by lia; f_equal; lia).
  assert (V : 2 ^ (width F - 1) - 2 ^ (mw F - 1) = (2 ^ ew F - 1) * 2 ^ mw F + 2 ^ (mw F - 1)).
  { replace (width F - 1) with (ew F + mw F) by (unfold width; lia). rewrite pow2_split by lia. rewrite P2. lia. }
  rewrite V. destruct (signed_bits F neg ((2 ^ ew F - 1) * 2 ^ mw F + 2 ^ (mw F - 1))) as (-> & Q1 & Q2).
  { split; [assert (0 <= (2 ^ ew F - 1) * 2 ^ mw F) by (apply Z.mul_nonneg_nonneg; lia); lia|]. lia. }
  destruct (mkbits_fields F neg _ _ Q1 Q2) as (S1 & S2 & S3).
  split; [now apply mkbits_range|]. split; [|exact S1]. unfold isnan. rewrite S2, S3.
  rewrite Z.div_add_l, Z.div_small, Z.add_0_r, Z.eqb_refl by lia. rewrite Z.add_comm, Z.mod_add, Z.mod_small by lia.
  now rewrite (proj2 (Z.eqb_neq _ _)) by lia.
Qed.

(** ** Exact parsing *)
Lemma rnd_in_val F m y : finite F y = true -> rnd_in F m (val F y) = val F y.
Proof.
  intros H. unfold rnd_in. destruct m; cbn [rfun]; apply round_generic; auto with typeclass_instances; exact (repr_val F y H).
Qed.

Lemma parse_exact_ok F s neg N k D ng : hex_lit s neg N k D ng -> 4 * Z.of_nat (length s) < 2 ^ 31 -> D < 2 ^ 32 ->
  (hex_mag N k D ng < bpow radix2 (hex_lim F))%R ->
  (exists y, parse_hex_exact s (width F) (mw F) = Some (Ok y) /\ isbits F y /\ finite F y = true /\
     val F y = sval neg (hex_mag N k D ng) /\ signbit F y = neg) \/
  (exists e, parse_hex_exact s (width F) (mw F) = Some (Err e) /\
     forall y, isbits F y -> finite F y = true -> val F y <> sval neg (hex_mag N k D ng)).
Proof.
  intros H L HD Hlim. destruct (parse_any_ok F s neg N k D ng Nearest H L HD Hlim) as (y & ovf & unf & inx & E & B & R).
  unfold parse_hex_exact. rewrite E. cbn [bind]. set (v := sval neg (hex_mag N k D ng)) in *. cbn [spec_mode] in R.
  destruct (Rlt_bool_spec (Rabs (rnd_in F ToNearest v)) (bpow radix2 (bias F + 1))) as [LT|GE].
  - destruct R as (R1 & R2 & R3 & -> & R5 & R6). destruct inx.
    + right. assert (Nv : rnd_in F ToNearest v <> v) by (now apply R5).
      assert (X : forall y0, isbits F y0 -> finite F y0 = true -> val F y0 <> v).
      { intros y0 _ Fy Ev. apply Nv. rewrite <- Ev. now apply rnd_in_val. }
      destruct unf; cbn; eexists; (split; [reflexivity|exact X]).
    + left. assert (unf = false) as ->.
      { destruct unf; [|reflexivity]. destruct (proj1 R6 eq_refl) as [Nv _]. apply R5 in Nv. discriminate. }
      exists y. cbn. split; [reflexivity|]. split; [exact B|]. split; [exact R1|]. split; [|exact R3].
      rewrite R2. destruct (Req_dec (rnd_in F ToNearest v) v) as [Ev|Ev]; [exact Ev|]. apply R5 in Ev. discriminate.
  - destruct R as (_ & -> & -> & ->). right. cbn. eexists. split; [reflexivity|]. intros y0 B0 Fy Ev.
    rewrite <- Ev, rnd_in_val in GE by exact Fy. pose proof (val_lt_emax F y0 Fy). lra.
Qed.

Lemma hf_ok F s neg N k D ng : hex_lit s neg N k D ng -> 4 * Z.of_nat (length s) < 2 ^ 31 -> D < 2 ^ 32 ->
  (hex_mag N k D ng < bpow radix2 (hex_lim F))%R ->
  forall y, hf F s = Some y <-> isbits F y /\ finite F y = true /\ val F y = sval neg (hex_mag N k D ng) /\ signbit F y = neg.
Proof.
  intros H L HD Hlim y. unfold hf, BITS, SIG_BITS.
  destruct (parse_exact_ok F s neg N k D ng H L HD Hlim) as [(y0 & -> & B & Fy & V & S)|(e & -> & X)]; cbn [bind].
  - unfold to_u. rewrite Z.mod_small by exact B. split.
    + intros E. injection E as <-. tauto.
    + intros (B' & F' & V' & S'). f_equal. apply (val_sign_inj F); congruence.
  - split; [discriminate|]. intros (B' & F' & V' & S'). exfalso. exact (X y B' F' V').
Qed.
