(** The hexadecimal float parser: scanning. *)
From Coq Require Import ZArith Reals Lia Lra Bool List.
From Flocq Require Import Core.
From Verif Require Import Base Spec SpecHex Format P_format P_ieee P_real P_near M_hex.
Import ListNotations.
Open Scope Z_scope.

(** ** Digits *)
Lemma hex_digit_some c d : hex_digit c = Some d <-> hexdig c d.
Proof.
  unfold hex_digit, hexdig.
  destruct (Z.leb_spec 48 c), (Z.leb_spec c 57), (Z.leb_spec 97 c), (Z.leb_spec c 102), (Z.leb_spec 65 c), (Z.leb_spec c 70);
    cbn [andb]; split; intros E; try discriminate; try (injection E as <-; lia); try (f_equal; lia).
Qed.
Lemma dec_digit_some c d : dec_digit c = Some d <-> decdig c d.
Proof.
  unfold dec_digit, decdig.
  destruct (Z.leb_spec 48 c), (Z.leb_spec c 57); cbn [andb]; split; intros E; try discriminate; try (injection E as <-; lia);
    try (f_equal; lia).
Qed.
Lemma hexdig_range c d : hexdig c d -> 0 <= d < 16 /\ c <> 46 /\ c <> 112 /\ c <> 80.
Proof. unfold hexdig. lia. Qed.
Lemma decdig_range c d : decdig c d -> 0 <= d < 10.
Proof. unfold decdig. lia. Qed.

Lemma number_app b l d : number b (l ++ [d]) = number b l * b + d.
Proof. unfold number. now rewrite fold_left_app. Qed.
Lemma fold_number b l a : fold_left (fun a d => a * b + d) l a = a * b ^ Z.of_nat (length l) + number b l.
Proof.
  revert a. induction l as [|d l IH]; intros a; [cbn; lia|]. unfold number. cbn [fold_left length].
  rewrite (IH (a * b + d)), (IH (0 * b + d)). rewrite Nat2Z.inj_succ, Z.pow_succ_r by lia. ring.
Qed.

(** ** The digit loop.  [scanned N f st]: the state holds the digits of [N], [f] of them behind the point. *)
Definition scanned (N f : Z) (sig exp : Z) (inx : bool) : Prop :=
  exists j r, 0 <= j /\ exp = 4 * j - 4 * f /\ N = sig * 2 ^ (4 * j) + r /\ 0 <= r < 2 ^ (4 * j) /\
    (inx = true <-> r <> 0) /\ (j = 0 \/ 2 ^ 124 <= sig) /\ 0 <= sig < 2 ^ 128.

Lemma lor_digit s d : 0 <= d < 16 -> Z.lor (s * 2 ^ 4) d = s * 2 ^ 4 + d.
Proof. intros H. apply lor_disjoint; [lia|]. change (2 ^ 4) with 16. lia. Qed.

Lemma loop_digit c d rest sig exp seen some inx N f : hexdig c d -> scanned N f sig exp inx ->
  - 2 ^ 31 + 4 <= exp < 2 ^ 31 - 4 ->
  exists sig' exp' inx', digits_loop (c :: rest) (sig, exp, seen, some, inx) = digits_loop rest (sig', exp', seen, true, inx') /\
    scanned (N * 16 + d) (if seen then f + 1 else f) sig' exp' inx' /\ exp - 4 <= exp' <= exp + 4.
Proof.
  intros Hd (j & r & J & E & EN & R0 & I & S & SB) B. destruct (hexdig_range _ _ Hd) as (D & C1 & C2 & C3).
  cbn [digits_loop]. rewrite !(proj2 (Z.eqb_neq _ _)) by assumption. cbn [orb].
  rewrite (proj2 (hex_digit_some c d) Hd). rewrite ushr_ok by lia. cbn [bind].
  destruct (Z.eqb_spec (sig / 2 ^ 124) 0) as [T|T].
  - assert (L : sig < 2 ^ 124).
    { apply Z.div_small_iff in T; [|lia]. lia. }
    assert (J0 : j = 0) by lia. rewrite ushl_ok by lia. cbn [bind].
    rewrite Z.mod_small by (change (2 ^ 128) with (2 ^ 124 * 2 ^ 4); split; [apply Z.mul_nonneg_nonneg; lia|apply Z.mul_lt_mono_pos_r; lia]).
    rewrite lor_digit by exact D.
    assert (X : forall f', (exists j r, 0 <= j /\ exp - 4 * (f' - f) = 4 * j - 4 * f' /\ N * 16 + d = (sig * 2 ^ 4 + d) * 2 ^ (4 * j) + r
       /\ 0 <= r < 2 ^ (4 * j) /\ (inx = true <-> r <> 0) /\ (j = 0 \/ 2 ^ 124 <= sig * 2 ^ 4 + d) /\ 0 <= sig * 2 ^ 4 + d < 2 ^ 128)).
    { intros f'. exists 0, 0. subst j. change (2 ^ (4 * 0)) with 1 in *. change (2 ^ 4) with 16. change (2 ^ 124) with 21267647932558653966460912964485513216 in L.
      change (2 ^ 128) with 340282366920938463463374607431768211456. repeat split; try lia.
      - intros A. apply I in A. lia. }
    destruct seen.
    + unfold ssub. rewrite chk_ok by (change (2 ^ (32 - 1)) with (2 ^ 31); lia). cbn [bind].
      exists (sig * 2 ^ 4 + d), (exp - 4), inx. split; [reflexivity|]. split; [|lia].
      destruct (X (f + 1)) as (j' & r' & X1 & X2 & X3). exists j', r'. split; [exact X1|]. split; [lia|exact X3].
    + exists (sig * 2 ^ 4 + d), exp, inx. split; [reflexivity|]. split; [|lia].
      destruct (X f) as (j' & r' & X1 & X2 & X3). exists j', r'. split; [exact X1|]. split; [lia|exact X3].
  - assert (L : 2 ^ 124 <= sig).
    { destruct (Z.le_gt_cases (2 ^ 124) sig) as [L|L]; [exact L|]. exfalso. apply T. apply Z.div_small. lia. }
    unfold sadd. rewrite chk_ok by (change (2 ^ (32 - 1)) with (2 ^ 31); lia). cbn [bind].
    assert (X : forall f', (exists j r, 0 <= j /\ exp + 4 - 4 * (f' - f) = 4 * j - 4 * f' /\ N * 16 + d = sig * 2 ^ (4 * j) + r
       /\ 0 <= r < 2 ^ (4 * j) /\ ((inx || negb (d =? 0)) = true <-> r <> 0) /\ (j = 0 \/ 2 ^ 124 <= sig) /\ 0 <= sig < 2 ^ 128)).
    { intros f'. exists (j + 1), (r * 16 + d).
      assert (P : 2 ^ (4 * (j + 1)) = 2 ^ (4 * j) * 16).
      { replace (4 * (j + 1)) with (4 * j + 4) by lia. rewrite pow2_split by lia. reflexivity. }
      rewrite P. repeat split; try lia.
      - intros A. apply orb_true_iff in A. destruct A as [A|A].
        + apply I in A. lia.
        + apply negb_true_iff, Z.eqb_neq in A. lia.
      - intros A. apply orb_true_iff. destruct (Z.eq_dec r 0) as [R|R].
        + right. apply negb_true_iff, Z.eqb_neq. lia.
        + left. now apply I. }
    destruct seen.
    + unfold ssub. rewrite chk_ok by (change (2 ^ (32 - 1)) with (2 ^ 31); lia). cbn [bind].
      exists sig, (exp + 4 - 4), (inx || negb (d =? 0)). split; [reflexivity|]. split; [|lia].
      destruct (X (f + 1)) as (j' & r' & X1 & X2 & X3). exists j', r'. split; [exact X1|]. split; [lia|exact X3].
    + exists sig, (exp + 4), (inx || negb (d =? 0)). split; [reflexivity|]. split; [|lia].
      destruct (X f) as (j' & r' & X1 & X2 & X3). exists j', r'. split; [exact X1|]. split; [lia|exact X3].
Qed.

Lemma loop_run cs ds rest : Forall2 hexdig cs ds -> forall sig exp seen some inx N f, scanned N f sig exp inx ->
  Z.abs exp + 4 * Z.of_nat (length cs) < 2 ^ 31 ->
  exists sig' exp' inx',
    digits_loop (cs ++ rest) (sig, exp, seen, some, inx) =
      digits_loop rest (sig', exp', seen, some || negb (Nat.eqb (length ds) 0), inx') /\
    scanned (fold_left (fun a d => a * 16 + d) ds N) (if seen then f + Z.of_nat (length ds) else f) sig' exp' inx' /\
    Z.abs exp' <= Z.abs exp + 4 * Z.of_nat (length cs).
Proof.
  intros H. induction H as [|c d cs ds Hd _ IH]; intros sig exp seen some inx N f I B.
  - exists sig, exp, inx. cbn [length Nat.eqb negb app fold_left]. rewrite orb_false_r. split; [reflexivity|].
    split; [|lia]. destruct seen; [|exact I]. now rewrite Z.add_0_r.
  - cbn [length] in B. rewrite Nat2Z.inj_succ in B.
    destruct (loop_digit c d (cs ++ rest) sig exp seen some inx N f Hd I ltac:(lia)) as (s1 & e1 & i1 & L & I1 & E1).
    cbn [app]. rewrite L.
    destruct (IH s1 e1 seen true i1 _ _ I1 ltac:(lia)) as (s2 & e2 & i2 & L2 & I2 & E2).
    exists s2, e2, i2. rewrite L2. cbn [length Nat.eqb negb fold_left]. rewrite orb_true_r. cbn [orb].
    split; [reflexivity|]. split; [|lia].
    destruct seen; [|exact I2]. now replace (f + Z.of_nat (S (length ds))) with (f + 1 + Z.of_nat (length ds)) by lia.
Qed.

(** ** The exponent loop *)
Lemma decs_nonneg cs ds : Forall2 decdig cs ds -> Forall (fun d => 0 <= d) ds.
Proof. intros H. induction H as [|c d cs ds Hd _ IH]; constructor; [apply decdig_range in Hd; lia|exact IH]. Qed.
Lemma hexs_nonneg cs ds : Forall2 hexdig cs ds -> Forall (fun d => 0 <= d) ds.
Proof. intros H. induction H as [|c d cs ds Hd _ IH]; constructor; [apply hexdig_range in Hd; lia|exact IH]. Qed.
Lemma fold_grows b l a : 1 <= b -> 0 <= a -> Forall (fun d => 0 <= d) l -> a <= fold_left (fun a d => a * b + d) l a.
Proof.
  intros Hb. revert a. induction l as [|x l IHl]; intros a Ha Hl; [cbn; lia|]. inversion Hl; subst. cbn [fold_left].
  assert (a * 1 <= a * b) by (apply Z.mul_le_mono_nonneg_l; lia).
  specialize (IHl (a * b + x) ltac:(lia) ltac:(assumption)). lia.
Qed.
Lemma number_nonneg b l : 1 <= b -> Forall (fun d => 0 <= d) l -> 0 <= number b l.
Proof. intros. unfold number. apply fold_grows; [assumption|lia|assumption]. Qed.

Lemma exp_run cs ds : Forall2 decdig cs ds -> forall p some, 0 <= p ->
  fold_left (fun a d => a * 10 + d) ds p < 2 ^ 32 ->
  exp_loop cs p some = Some (Ok (fold_left (fun a d => a * 10 + d) ds p, some || negb (Nat.eqb (length ds) 0))).
Proof.
  intros H. induction H as [|c d cs ds Hd Hs IH]; intros p some P B.
  - cbn. now rewrite orb_false_r.
  - cbn [exp_loop fold_left length Nat.eqb negb]. rewrite (proj2 (dec_digit_some c d) Hd). cbv zeta.
    assert (D := decdig_range _ _ Hd). cbn [fold_left] in B.
    pose proof (fold_grows 10 ds (p * 10 + d) ltac:(lia) ltac:(lia) (decs_nonneg _ _ Hs)) as G.
    rewrite Z.min_l by lia. rewrite uadd_ok by lia. cbn [bind]. rewrite IH by lia. now rewrite orb_true_r.
Qed.

(** ** [parse_hex] on a well-formed body *)
Definition clamp32 (e : Z) : Z := if e <? - 2 ^ 31 then - 2 ^ 31 else if 2 ^ 31 - 1 <? e then 2 ^ 31 - 1 else e.

Lemma loop_body s N k D ng : hex_body s N k D ng -> 4 * Z.of_nat (length s) < 2 ^ 31 ->
  exists sig exp inx seen ep de sg,
    digits_loop s (0, 0, false, false, false) = Some (Ok (sg ++ ep, (sig, exp, seen, true, inx))) /\ scanned N k sig exp inx /\
    Z.abs exp < 2 ^ 31 /\ opt_sign sg ng /\ Forall2 decdig ep de /\ de <> [] /\ D = number 10 de.
Proof.
  intros (ip & di & fp & df & pc & sg & ep & de & Es & Hi & Hf & Hne & Hp & Hsg & He & Hde & EN & Ek & ED) L.
  assert (S0 : scanned 0 0 0 0 false).
  { exists 0, 0. change (2 ^ (4 * 0)) with 1. repeat split; try lia. }
  assert (Len : 4 * Z.of_nat (length ip) + 4 * Z.of_nat (length fp) < 2 ^ 31).
  { rewrite Es in L. rewrite !app_length in L. cbn [length] in L. lia. }
  destruct (loop_run ip di (fp ++ pc :: sg ++ ep) Hi 0 0 false false false 0 0 S0 ltac:(lia)) as (s1 & e1 & i1 & L1 & I1 & E1).
  destruct Hf as [|fc df Hf].
  - cbn [app] in *. rewrite app_nil_r in Hne, EN.
    exists s1, e1, i1, false, ep, de, sg. rewrite Es, L1. cbn [orb].
    assert (negb (Nat.eqb (length di) 0) = true) as -> by (destruct di; [congruence|reflexivity]).
    split.
    { cbn [digits_loop]. destruct Hp as [-> | ->]; reflexivity. }
    subst N k. split; [exact I1|]. split; [lia|]. now repeat split.
  - cbn [length app] in Len, L1. rewrite Nat2Z.inj_succ in Len.
    change ((46 :: fc) ++ pc :: sg ++ ep) with (46 :: (fc ++ pc :: sg ++ ep)) in L1.
    cbn [digits_loop] in L1. change (46 =? 46) with true in L1. cbn match in L1.
    destruct (loop_run fc df (pc :: sg ++ ep) Hf s1 e1 true (false || negb (Nat.eqb (length di) 0)) i1 _ 0 I1 ltac:(lia))
      as (s2 & e2 & i2 & L2 & I2 & E2).
    exists s2, e2, i2, true, ep, de, sg. rewrite Es. cbn [app]. rewrite L1, L2. cbn [orb].
    assert (negb (Nat.eqb (length di) 0) || negb (Nat.eqb (length df) 0) = true) as -> by (destruct di; [destruct df; [cbn in Hne; congruence|reflexivity]|reflexivity]).
    split.
    { cbn [digits_loop]. destruct Hp as [-> | ->]; reflexivity. }
    split; [|split; [lia|now repeat split]].
    subst N k. unfold number. rewrite fold_left_app. exact I2.
Qed.

Lemma strip_ok sg ng ep de : opt_sign sg ng -> Forall2 decdig ep de -> de <> [] ->
  starts_minus (sg ++ ep) = ng /\ strip_sign (sg ++ ep) = ep.
Proof.
  intros Hs He Hn. destruct Hs; cbn [app starts_minus strip_sign].
  - destruct He as [|c d cs ds Hc _]; [congruence|]. destruct Hc as [Hc _]. cbn.
    rewrite !(proj2 (Z.eqb_neq _ _)) by lia. split; reflexivity.
  - split; reflexivity.
  - split; reflexivity.
Qed.

Lemma parse_hex_ok s N k D ng : hex_body s N k D ng -> 4 * Z.of_nat (length s) < 2 ^ 31 -> D < 2 ^ 32 ->
  exists sig exp inx, scanned N k sig exp inx /\
    parse_hex s = Some (Ok (Z.lor sig (Z.b2z inx), clamp32 (exp + (if ng then - D else D)))).
Proof.
  intros H L HD. destruct (loop_body _ _ _ _ _ H L) as (sig & exp & inx & seen & ep & de & sg & E & I & B & Hs & He & Hn & ED).
  exists sig, exp, inx. split; [exact I|]. unfold parse_hex. rewrite E. cbn [bind negb].
  destruct (strip_ok sg ng ep de Hs He Hn) as [-> ->].
  rewrite (exp_run ep de He 0 false ltac:(lia)) by (rewrite ED in HD; exact HD). cbn [bind orb].
  assert (negb (Nat.eqb (length de) 0) = true) as -> by (destruct de; [congruence|reflexivity]).
  cbn [negb]. change (fold_left (fun a d => a * 10 + d) de 0) with (number 10 de). rewrite <- ED.
  assert (D0 : 0 <= D) by (rewrite ED; apply number_nonneg; [lia|exact (decs_nonneg _ _ He)]).
  unfold clamp32. destruct ng; unfold ssub, sadd; rewrite chk_ok by (change (2 ^ (64 - 1)) with 9223372036854775808; lia); cbn [bind]; reflexivity.
Qed.

(** ** Acceptance: whatever is accepted is a literal, and no literal is reported as an error *)
Lemma loop_sound b : forall sig exp seen some inx b' sig' exp' seen' some' inx',
  digits_loop b (sig, exp, seen, some, inx) = Some (Ok (b', (sig', exp', seen', some', inx'))) ->
  exists ip di fp df tl, b = ip ++ fp ++ tl /\ Forall2 hexdig ip di /\ opt_frac fp df /\ (seen = true -> fp = []) /\
    ((tl = [] /\ b' = []) \/ (exists pc, tl = pc :: b' /\ (pc = 112 \/ pc = 80))) /\
    some' = some || negb (Nat.eqb (length (di ++ df)) 0).
Proof.
  induction b as [|c rest IH]; intros sig exp seen some inx b' sig' exp' seen' some' inx' E.
  - cbn [digits_loop] in E. injection E as <- <- <- <- <- <-. exists [], [], [], [], [].
    split; [reflexivity|]. split; [constructor|]. split; [constructor|]. split; [reflexivity|]. split; [left; now split|].
    now rewrite orb_false_r.
  - cbn [digits_loop] in E. destruct (Z.eqb_spec c 46) as [C|C].
    { destruct seen; [discriminate|]. destruct (IH _ _ _ _ _ _ _ _ _ _ _ E) as (ip & di & fp & df & tl & E1 & H1 & H2 & H3 & H4 & H5).
      rewrite (H3 eq_refl) in *. assert (df = []) by (inversion H2; reflexivity). subst df.
      exists [], [], (46 :: ip), di, tl. subst c. cbn [app] in *. rewrite E1. rewrite app_nil_r in H5.
      split; [reflexivity|]. split; [constructor|]. split; [now constructor|]. split; [discriminate|]. split; [exact H4|exact H5]. }
    destruct ((c =? 112) || (c =? 80)) eqn:P.
    { injection E as <- <- <- <- <- <-. exists [], [], [], [], (c :: rest).
      split; [reflexivity|]. split; [constructor|]. split; [constructor|]. split; [reflexivity|]. split; [right; exists c; split; [reflexivity|]; lia|].
      now rewrite orb_false_r. }
    destruct (hex_digit c) as [d|] eqn:Hd; [|discriminate]. apply hex_digit_some in Hd.
    destruct (ushr 128 sig 124) as [top|]; [|discriminate]. cbn [bind] in E.
    match type of E with bind ?o _ = _ => destruct o as [[[s1 e1] i1]|]; [|discriminate] end. cbn [bind] in E.
    match type of E with bind ?o _ = _ => destruct o as [e2|]; [|discriminate] end. cbn [bind] in E.
    destruct (IH _ _ _ _ _ _ _ _ _ _ _ E) as (ip & di & fp & df & tl & E1 & H1 & H2 & H3 & H4 & H5).
    exists (c :: ip), (d :: di), fp, df, tl. rewrite E1. cbn [app].
    split; [reflexivity|]. split; [now constructor|]. split; [exact H2|]. split; [exact H3|]. split; [exact H4|].
    rewrite H5. cbn [length Nat.eqb negb orb]. now rewrite orb_true_r.
Qed.

Lemma exp_sound b : forall p some p' some', exp_loop b p some = Some (Ok (p', some')) ->
  exists de, Forall2 decdig b de /\ some' = some || negb (Nat.eqb (length de) 0).
Proof.
  induction b as [|c rest IH]; intros p some p' some' E; cbn [exp_loop] in E.
  - injection E as <- <-. exists []. split; [constructor|]. now rewrite orb_false_r.
  - destruct (dec_digit c) as [d|] eqn:Hd; [|discriminate]. apply dec_digit_some in Hd. cbv zeta in E.
    match type of E with bind ?o _ = _ => destruct o as [p1|]; [|discriminate] end. cbn [bind] in E.
    destruct (IH _ _ _ _ E) as (de & H1 & H2). exists (d :: de). split; [now constructor|].
    rewrite H2. cbn. now rewrite orb_true_r.
Qed.

Lemma sign_split b : exists sg, b = sg ++ strip_sign b /\ opt_sign sg (starts_minus b).
Proof.
  destruct b as [|c r]; [exists []; split; [reflexivity|constructor]|]. cbn [strip_sign starts_minus].
  destruct (Z.eqb_spec c 45) as [-> |C]; [exists [45]; split; [reflexivity|constructor]|].
  destruct (Z.eqb_spec c 43) as [-> |C2]; [exists [43]; split; [reflexivity|constructor]|].
  exists []. split; [reflexivity|constructor].
Qed.

Lemma parse_hex_sound s x : parse_hex s = Some (Ok x) -> exists N k D ng, hex_body s N k D ng.
Proof.
  unfold parse_hex. intros E.
  destruct (digits_loop s (0, 0, false, false, false)) as [[[b' [[[[sig exp] seen] some] inx]]|]|] eqn:L; cbn [bind] in E; try discriminate.
  destruct some; cbn [negb] in E; [|discriminate].
  destruct (exp_loop (strip_sign b') 0 false) as [[[p some]|]|] eqn:L2; cbn [bind] in E; try discriminate.
  destruct some; cbn [negb] in E; [|discriminate].
  destruct (loop_sound _ _ _ _ _ _ _ _ _ _ _ _ L) as (ip & di & fp & df & tl & E1 & H1 & H2 & _ & H4 & H5).
  destruct (exp_sound _ _ _ _ _ L2) as (de & H6 & H7).
  destruct (sign_split b') as (sg & S1 & S2).
  destruct H4 as [[_ H4]|(pc & H4 & H8)].
  { exfalso. subst b'. cbn in H6. inversion H6; subst de. discriminate H7. }
  exists (number 16 (di ++ df)), (Z.of_nat (length df)), (number 10 de), (starts_minus b').
  exists ip, di, fp, df, pc, sg, (strip_sign b'), de.
  split; [rewrite E1, H4; now rewrite <- S1|]. split; [exact H1|]. split; [exact H2|].
  split; [destruct (di ++ df); [discriminate H5|discriminate]|]. split; [exact H8|]. split; [exact S2|]. split; [exact H6|].
  split; [destruct de; [discriminate H7|discriminate]|]. repeat split.
Qed.

Lemma loop_any cs ds rest : Forall2 hexdig cs ds -> forall sig exp seen some inx,
  digits_loop (cs ++ rest) (sig, exp, seen, some, inx) = None \/
  exists sig' exp' inx', digits_loop (cs ++ rest) (sig, exp, seen, some, inx) =
    digits_loop rest (sig', exp', seen, some || negb (Nat.eqb (length ds) 0), inx').
Proof.
  intros H. induction H as [|c d cs ds Hd _ IH]; intros sig exp seen some inx.
  - right. exists sig, exp, inx. cbn. now rewrite orb_false_r.
  - cbn [app digits_loop]. destruct (hexdig_range _ _ Hd) as (D & C1 & C2 & C3).
    rewrite !(proj2 (Z.eqb_neq _ _)) by assumption. cbn [orb]. rewrite (proj2 (hex_digit_some c d) Hd).
    destruct (ushr 128 sig 124) as [top|]; [|now left]. cbn [bind].
    match goal with |- context [bind ?o ?k = None] => destruct o as [[[s1 e1] i1]|]; [|now left] end. cbn [bind].
    match goal with |- context [bind ?o ?k = None] => destruct o as [e2|]; [|now left] end. cbn [bind].
    destruct (IH s1 e2 seen true i1) as [E|(s2 & e3 & i2 & E)]; [now left|right]. exists s2, e3, i2. rewrite E.
    cbn. now rewrite orb_true_r.
Qed.
Lemma exp_any cs ds : Forall2 decdig cs ds -> forall p some,
  exp_loop cs p some = None \/ exists p', exp_loop cs p some = Some (Ok (p', some || negb (Nat.eqb (length ds) 0))).
Proof.
  intros H. induction H as [|c d cs ds Hd _ IH]; intros p some.
  - right. exists p. cbn. now rewrite orb_false_r.
  - cbn [exp_loop]. rewrite (proj2 (dec_digit_some c d) Hd). cbv zeta.
    match goal with |- context [bind ?o ?k = None] => destruct o as [p1|]; [|now left] end. cbn [bind].
    destruct (IH p1 true) as [E|(p2 & E)]; [now left|right]. exists p2. rewrite E. cbn. now rewrite orb_true_r.
Qed.

Lemma parse_hex_no_err s N k D ng : hex_body s N k D ng -> forall e, parse_hex s <> Some (Err e).
Proof.
  intros (ip & di & fp & df & pc & sg & ep & de & Es & Hi & Hf & Hne & Hp & Hsg & He & Hde & _) e. unfold parse_hex.
  assert (X : digits_loop s (0, 0, false, false, false) = None \/
     exists sig exp inx seen, digits_loop s (0, 0, false, false, false) = Some (Ok (sg ++ ep, (sig, exp, seen, true, inx)))).
  { rewrite Es. destruct (loop_any ip di (fp ++ pc :: sg ++ ep) Hi 0 0 false false false) as [E|(s1 & e1 & i1 & E)]; [now left|].
    rewrite E. destruct Hf as [|fc df Hf].
    - right. rewrite app_nil_r in Hne. exists s1, e1, i1, false. cbn [app digits_loop].
      destruct di; [congruence|]. destruct Hp as [-> | ->]; reflexivity.
    - cbn [app digits_loop]. change (46 =? 46) with true. cbn match.
      destruct (loop_any fc df (pc :: sg ++ ep) Hf s1 e1 true (false || negb (Nat.eqb (length di) 0)) i1) as [E2|(s2 & e2 & i2 & E2)]; [now left|right].
      exists s2, e2, i2, true. rewrite E2. cbn [digits_loop].
      assert (false || negb (Nat.eqb (length di) 0) || negb (Nat.eqb (length df) 0) = true) as -> by (destruct di; [destruct df; [cbn in Hne; congruence|reflexivity]|reflexivity]).
      destruct Hp as [-> | ->]; reflexivity. }
  destruct X as [X|(sig & exp & inx & seen & X)]; rewrite X; cbn [bind negb]; [discriminate|].
  destruct (strip_ok sg ng ep de Hsg He Hde) as [-> ->].
  destruct (exp_any ep de He 0 false) as [E|(p & E)]; rewrite E; cbn [bind]; [discriminate|].
  assert (false || negb (Nat.eqb (length de) 0) = true) as -> by (destruct de; [congruence|reflexivity]). cbn [negb].
  match goal with |- bind ?o _ <> _ => destruct o; cbn [bind]; discriminate end.
Qed.
