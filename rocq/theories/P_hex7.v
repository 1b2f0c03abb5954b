(** The hexadecimal float parser does not panic on moderate input; formatting round-trips. *)
From Coq Require Import ZArith Reals Lia Lra Bool List.
From Flocq Require Import Core.
From Verif Require Import Base Spec SpecHex Format Ieee P_format P_ieee P_real P_near M_hex P_hex P_hex2 P_hex3 P_hex4 P_hex5 P_hex6.
Import ListNotations.
Open Scope Z_scope.

(** ** No panic *)
Lemma loop_total b : forall sig exp seen some inx, 0 <= sig < 2 ^ 128 -> Z.abs exp + 4 * Z.of_nat (length b) < 2 ^ 31 ->
  exists res, digits_loop b (sig, exp, seen, some, inx) = Some res /\
    match res with
    | Ok (b', (sig', exp', _, _, _)) => 0 <= sig' < 2 ^ 128 /\ Z.abs exp' <= Z.abs exp + 4 * Z.of_nat (length b) /\ b' = after_p b
    | Err _ => True
    end.
Proof.
  induction b as [|c rest IH]; intros sig exp seen some inx S B; cbn [digits_loop after_p].
  - eexists. split; [reflexivity|]. split; [exact S|]. split; [lia|reflexivity].
  - cbn [length] in B. rewrite Nat2Z.inj_succ in B.
    destruct (Z.eqb_spec c 46) as [-> |C].
    { change ((46 =? 112) || (46 =? 80)) with false. cbn match. destruct seen; [eexists; split; [reflexivity|exact I]|].
      destruct (IH sig exp true some inx S ltac:(lia)) as (res & E & H). exists res. split; [exact E|].
      destruct res as [[b' [[[[s' e'] ?] ?] ?]]|]; [|exact I]. cbn [length]. rewrite Nat2Z.inj_succ. split; [tauto|]. split; [lia|tauto]. }
    destruct ((c =? 112) || (c =? 80)) eqn:P.
    { eexists. split; [reflexivity|]. cbn [length]. split; [lia|]. split; [lia|reflexivity]. }
    destruct (hex_digit c) as [d|] eqn:Hd; [|eexists; split; [reflexivity|exact I]].
    apply hex_digit_some in Hd. destruct (hexdig_range _ _ Hd) as (D & _).
    rewrite ushr_ok by lia. cbn [bind].
    assert (X : exists s1 e1 i1, (if sig / 2 ^ 124 =? 0 then let* t := ushl 128 sig 4 in Some (Z.lor t d, exp, inx)
       else let* e := sadd 32 exp 4 in Some (sig, e, inx || negb (d =? 0))) = Some (s1, e1, i1) /\ 0 <= s1 < 2 ^ 128 /\
       exp <= e1 <= exp + 4).
    { destruct (Z.eqb_spec (sig / 2 ^ 124) 0) as [T|T].
      - assert (L : sig < 2 ^ 124) by (apply Z.div_small_iff in T; lia). rewrite ushl_ok by lia. cbn [bind].
        rewrite Z.mod_small by (change (2 ^ 128) with (2 ^ 124 * 2 ^ 4); split; [apply Z.mul_nonneg_nonneg; lia|apply Z.mul_lt_mono_pos_r; lia]).
        rewrite lor_digit by exact D. eexists _, _, _. split; [reflexivity|]. split; [change (2 ^ 128) with (2 ^ 124 * 16); change (2 ^ 4) with 16; lia|lia].
      - unfold sadd. rewrite chk_ok by (change (2 ^ (32 - 1)) with (2 ^ 31); lia). cbn [bind]. eexists _, _, _. split; [reflexivity|]. split; [exact S|lia]. }
    destruct X as (s1 & e1 & i1 & -> & S1 & E1). cbn [bind].
    assert (Y : exists e2, (if seen then ssub 32 e1 4 else Some e1) = Some e2 /\ exp - 4 <= e2 <= exp + 4).
    { destruct seen; [unfold ssub; rewrite chk_ok by (change (2 ^ (32 - 1)) with (2 ^ 31); lia)|]; eexists; (split; [reflexivity|lia]). }
    destruct Y as (e2 & -> & E2). cbn [bind].
    destruct (IH s1 e2 seen true i1 S1 ltac:(lia)) as (res & E & H). exists res. split; [exact E|].
    destruct res as [[b' [[[[s' e'] ?] ?] ?]]|]; [|exact I]. cbn [length]. rewrite Nat2Z.inj_succ. split; [tauto|]. split; [lia|tauto].
Qed.

Lemma lead_nonneg b : Forall (fun d => 0 <= d) (lead_dec b).
Proof.
  induction b as [|c r IH]; cbn; [constructor|]. destruct (Z.leb_spec 48 c), (Z.leb_spec c 57); cbn [andb]; try constructor; try lia. exact IH.
Qed.
Lemma exp_total b : forall p some, 0 <= p -> fold_left (fun a d => a * 10 + d) (lead_dec b) p < 2 ^ 32 ->
  exists res, exp_loop b p some = Some res /\
    match res with Ok (p', _) => 0 <= p' <= fold_left (fun a d => a * 10 + d) (lead_dec b) p | Err _ => True end.
Proof.
  induction b as [|c r IH]; intros p some P B; cbn [exp_loop lead_dec] in *.
  - eexists. split; [reflexivity|]. cbn. lia.
  - unfold dec_digit. destruct ((48 <=? c) && (c <=? 57)) eqn:D; [|eexists; split; [reflexivity|exact I]].
    rewrite andb_true_iff, !Z.leb_le in D. cbv zeta. cbn [fold_left] in B.
    pose proof (fold_grows 10 (lead_dec r) (p * 10 + (c - 48)) ltac:(lia) ltac:(lia) (lead_nonneg r)) as G.
    rewrite Z.min_l by lia. rewrite uadd_ok by lia. cbn [bind].
    destruct (IH (p * 10 + (c - 48)) true ltac:(lia) B) as (res & E & H). exists res. split; [exact E|].
    destruct res as [[p' s']|]; [|exact I]. cbn [fold_left]. exact H.
Qed.
Lemma skip_strip b : skip_sign b = strip_sign b.
Proof. destruct b as [|c r]; [reflexivity|]. cbn. rewrite orb_comm. reflexivity. Qed.

Lemma parse_hex_total b : Z.of_nat (length b) < 2 ^ 27 -> exp_field b < 2 ^ 30 ->
  exists res, parse_hex b = Some res /\
    match res with Ok (sig, exp) => 0 <= sig < 2 ^ 128 /\ - 2 ^ 31 <= exp <= 2 ^ 30 + 2 ^ 29 | Err _ => True end.
Proof.
  intros L E. assert (E31 : 2 ^ 31 = 2147483648) by reflexivity. assert (E27 : 2 ^ 27 = 134217728) by reflexivity.
  assert (E30 : 2 ^ 30 = 1073741824) by reflexivity. assert (E32 : 2 ^ 32 = 4294967296) by reflexivity. assert (E29 : 2 ^ 29 = 536870912) by reflexivity.
  unfold parse_hex. destruct (loop_total b 0 0 false false false ltac:(lia) ltac:(lia)) as (res & -> & H). cbn [bind].
  destruct res as [[b' [[[[sig exp] seen] some] inx]]|]; [|eexists; split; [reflexivity|exact I]].
  destruct H as (S & X & ->). destruct some; cbn [negb]; [|eexists; split; [reflexivity|exact I]].
  unfold exp_field in E. rewrite skip_strip in E.
  destruct (exp_total (strip_sign (after_p b)) 0 false ltac:(lia)) as (res & -> & H); [unfold number in E; lia|]. cbn [bind].
  destruct res as [[pexp some]|]; [|eexists; split; [reflexivity|exact I]].
  destruct some; cbn [negb]; [|eexists; split; [reflexivity|exact I]]. fold (number 10 (lead_dec (strip_sign (after_p b)))) in H.
  assert (Y : exists e, (if starts_minus (after_p b) then ssub 64 exp pexp else sadd 64 exp pexp) = Some e /\ e <= 2 ^ 30 + 2 ^ 29).
  { unfold ssub, sadd. destruct (starts_minus (after_p b)); rewrite chk_ok by (change (2 ^ (64 - 1)) with 9223372036854775808; lia);
      eexists; (split; [reflexivity|lia]). }
  destruct Y as (e & -> & Le). cbn [bind]. eexists. split; [reflexivity|]. split.
  - destruct inx; cbn [Z.b2z]; [|rewrite Z.lor_0_r; exact S]. rewrite lor_1. destruct (Z.even sig) eqn:Ev; [|exact S].
    assert (sig <> 2 ^ 128 - 1) by (intros ->; discriminate Ev). lia.
  - destruct (Z.ltb_spec e (- 2 ^ 31)); [lia|]. rewrite (proj2 (Z.ltb_ge _ _)) by lia. lia.
Qed.

Lemma parse_finite_total b bits p r : config bits p -> Z.of_nat (length b) < 2 ^ 27 -> exp_field b < 2 ^ 30 ->
  exists res, parse_finite b bits p r = Some res.
Proof.
  intros C L E. destruct (finite_head b bits p r C) as (F1 & F2 & _).
  destruct (parse_hex_total b L E) as (res & H & B). destruct res as [[sig exp]|e]; [|eexists; exact (F1 _ H)].
  destruct (Z.eq_dec sig 0) as [-> |S]; [eexists; exact (F2 _ H)|].
  destruct C as (C1 & C2 & C3). set (e := bits - p - 1). replace bits with (p + e + 1) by (unfold e; lia).
  assert (E31 : 2 ^ 31 = 2147483648) by reflexivity. assert (E28 : 2 ^ 28 = 268435456) by reflexivity.
  assert (E30 : 2 ^ 30 = 1073741824) by reflexivity. assert (E29 : 2 ^ 29 = 536870912) by reflexivity.
  eexists. apply (finite_core b p e r sig exp (IZR sig)); unfold e in *; try lia; try exact H.
  - left. split; [apply near_refl|now left].
  - assert (M : 2 <= 2 ^ (bits - p - 1 - 1) <= 2 ^ 28) by (split; [change 2 with (2 ^ 1) at 1|]; apply Z.pow_le_mono_r; lia).
    destruct (T_spec 0 0 r sig 0 0%R ltac:(lia)) as [T1 T2]. lia.
Qed.

Lemma exp_field_lit sg neg xc rest : opt_sign sg neg -> (xc = 120 \/ xc = 88) -> exp_field (sg ++ 48 :: xc :: rest) = exp_field rest.
Proof. intros [] [-> | ->]; reflexivity. Qed.

Theorem parse_any_total s bits p r : p <> 0 -> 0 <= p -> Z.of_nat (length s) < 2 ^ 27 -> exp_field s < 2 ^ 30 ->
  exists res, parse_any s bits p r = Some res.
Proof.
  intros P0 P L E.
  destruct ((119 <? p) || (128 <? bits) || (bits <? p + 3) || (p + 30 <? bits)) eqn:G.
  { eexists. unfold parse_any. rewrite G. reflexivity. }
  rewrite !orb_false_iff, !Z.ltb_ge in G. assert (C : config bits p) by (unfold config; lia).
  rewrite parse_any_eq, rest_eq by exact C.
  destruct (is_word (strip_sign s) 105 110 102); [eexists; reflexivity|].
  destruct (is_word (strip_sign s) 110 97 110); [eexists; reflexivity|].
  destruct (sign_split s) as (sg & S1 & S2).
  destruct (strip_sign s) as [|c0 [|c1 rest]]; [eexists; reflexivity|eexists; reflexivity|].
  destruct ((c0 =? 48) && ((c1 =? 120) || (c1 =? 88))) eqn:I; [|eexists; reflexivity].
  rewrite andb_true_iff, orb_true_iff, !Z.eqb_eq in I. destruct I as [-> I].
  rewrite S1 in E. rewrite (exp_field_lit sg _ c1 rest S2 I) in E.
  rewrite S1, app_length in L. cbn [length] in L.
  destruct (parse_finite_total rest bits p (fliprnd (starts_minus s) r) C ltac:(lia) E) as (res & ->). eexists. reflexivity.
Qed.
