(** The medium path of the f64 argument reduction: exactness of the subtractions and the error of the reduced argument. *)
From Coq Require Import ZArith Reals Lia Lra Bool List Psatz.
From Flocq Require Import Core Pff.Pff2Flocq.
From Verif Require Import Base Spec Format P_format Ieee P_ieee P_real P_neg P_key P_elem P_elem2 P_lit P_ival P_ival2 P_err P_cf P_fx P_pibound P_medf M_basic M_elib M_rempio2.
Import ListNotations.
Open Scope Z_scope.
Open Scope fl_scope.

Definition PB2 : Z := Eval vm_compute in PI_LO / 2 ^ 1481.
Lemma pio2_240 : (IZR PB2 <= PI / 2 * IZR (2 ^ 240) <= IZR PB2 + 1)%R.
Proof.
  destruct PI_1720 as [L U]. assert (L1 : PB2 * 2 ^ 1481 <= PI_LO) by (vm_compute; discriminate). assert (U1 : PI_HI <= (PB2 + 1) * 2 ^ 1481) by (vm_compute; discriminate).
  apply IZR_le in L1, U1. rewrite mult_IZR in L1, U1. rewrite plus_IZR in U1. replace (IZR (2 ^ 1720)) with (IZR (2 ^ 239) * IZR (2 ^ 1481))%R in * by (rewrite <- mult_IZR; f_equal; vm_compute; reflexivity).
  assert (P : (0 < IZR (2 ^ 1481))%R) by (apply (IZR_lt 0); vm_compute; reflexivity).
  replace (PI / 2 * IZR (2 ^ 240))%R with (PI * IZR (2 ^ 239))%R. 2:{ change (2 ^ 240) with (2 * 2 ^ 239). rewrite mult_IZR. field. }
  split; apply Rmult_le_reg_r with (IZR (2 ^ 1481)); try assumption; lra.
Qed.
Lemma gap64_all : forallb (fun e => cf_check (2 ^ (e + 87)) PB (2 ^ 53) (2 ^ 79 + 2 ^ 22)) (map Z.of_nat (seq 0 22)) = true.
Proof. vm_compute. reflexivity. Qed.
(** no double between 1/2 and 2^21 is closer than 2^-61 to a multiple of pi/2 *)
Theorem gap64 e M n : -1 <= e <= 20 -> 0 < Z.abs M < 2 ^ 53 -> Z.abs n <= 2 ^ 22 ->
  (bpow radix2 (-61) <= Rabs (IZR M * bpow radix2 (e - 52) - IZR n * (PI / 2)))%R.
Proof.
  intros He HM Hn. set (r := (IZR M * bpow radix2 (e - 52) - IZR n * (PI / 2))%R).
  assert (In : In (e + 1) (map Z.of_nat (seq 0 22))) by (apply in_map_iff; exists (Z.to_nat (e + 1)); split; [lia|apply in_seq; lia]).
  pose proof (proj1 (forallb_forall _ _) gap64_all (e + 1) In) as C. cbv beta in C. replace (e + 1 + 87) with (e + 88) in C by lia.
  assert (G : 2 ^ 79 + 2 ^ 22 <= Z.abs (M * 2 ^ (e + 88) - n * PB)).
  { destruct (Z_lt_le_dec 0 M).
    - apply (cf_check_ok _ _ _ _ M n C). lia.
    - pose proof (cf_check_ok _ _ _ _ (- M) (- n) C ltac:(lia)) as K. replace (M * 2 ^ (e + 88) - n * PB) with (- (- M * 2 ^ (e + 88) - - n * PB)) by ring. now rewrite Z.abs_opp. }
  pose proof pio2_140 as [P1 P2].
  assert (S0 : (0 < IZR (2 ^ 140))%R) by (apply (IZR_lt 0); vm_compute; reflexivity).
  assert (E : (r * IZR (2 ^ 140) = IZR (M * 2 ^ (e + 88) - n * PB) - IZR n * (PI / 2 * IZR (2 ^ 140) - IZR PB))%R).
  { unfold r. rewrite minus_IZR, !mult_IZR. replace (IZR (2 ^ (e + 88))) with (bpow radix2 (e - 52) * bpow radix2 140)%R.
    2:{ rewrite <- bpow_plus. replace (e - 52 + 140) with (e + 88) by lia. symmetry. apply (IZR_Zpower radix2). lia. }
    replace (IZR (2 ^ 140)) with (bpow radix2 140) by reflexivity. ring. }
  set (D := (PI / 2 * IZR (2 ^ 140) - IZR PB)%R) in *. assert (HD : (Rabs D <= 1)%R) by (unfold D; apply Rabs_le; lra).
  apply Rmult_le_reg_r with (IZR (2 ^ 140)); [exact S0|].
  replace (bpow radix2 (-61) * IZR (2 ^ 140))%R with (IZR (2 ^ 79)) by (change (IZR (2 ^ 140)) with (bpow radix2 140); now rewrite <- bpow_plus).
  rewrite <- (Rabs_pos_eq (IZR (2 ^ 140))) at 1 by lra. rewrite <- Rabs_mult, E. apply IZR_le in G. rewrite abs_IZR, plus_IZR in G. apply IZR_le in Hn. rewrite abs_IZR in Hn.
  pose proof (Rabs_triang_inv (IZR (M * 2 ^ (e + 88) - n * PB)) (IZR n * D)) as T. rewrite Rabs_mult in T. pose proof (Rabs_pos (IZR n)). pose proof (Rabs_pos D). nra.
Qed.

(** ** Subtraction with its error *)
Notation u := (/ 9007199254740992)%R.
Lemma tiny180 : (0 < bpow radix2 (-200) <= bpow radix2 (-180))%R.
Proof. split; [apply bpow_gt_0|apply bpow_le; lia]. Qed.
Lemma fast2 (A B : R) : repr f64 A -> repr f64 B -> (Rabs B <= Rabs A)%R ->
  rnd f64 (rnd f64 (A - rnd f64 (A - B)) - B) = (A - B - rnd f64 (A - B))%R.
Proof.
  intros HA HB L. pose proof (Fast2Sum_correct (1 - bias f64 - mw f64) (mw f64 + 1) (fun x => negb (Z.even x)) ltac:(cbn; lia) ltac:(cbn; lia)) as F.
  assert (CS : forall x : Z, negb (Z.even x) = negb (negb (Z.even (- (x + 1))))).
  { intros x. rewrite Z.even_opp, Z.add_1_r, Z.even_succ. rewrite <- Z.negb_even. now destruct (Z.even x). }
  specialize (F CS A (- B)%R HA (repr_opp f64 B HB)). rewrite Rabs_Ropp in F. specialize (F L). fold (rnd f64 (A + - B)) in F. fold (rnd f64 (A - rnd f64 (A + - B))) in F. fold (rnd f64 (- B + rnd f64 (A - rnd f64 (A + - B)))) in F.
  change (A + - B)%R with (A - B)%R in F. replace (- B + rnd f64 (A - rnd f64 (A - B)))%R with (rnd f64 (A - rnd f64 (A - B)) - B)%R in F by ring. lra.
Qed.
(** the rounded difference [a - b] and its rounding error, computed as [(a - s) - b] *)
Lemma two_sub a b : isbits f64 a -> finite f64 a = true -> finite f64 b = true -> (Rabs (val f64 a) <= 16)%R -> (Rabs (val f64 b) <= 16)%R ->
  (Rabs (val f64 b) <= Rabs (val f64 a) \/ repr f64 (val f64 a - val f64 b))%R ->
  let s := a -: b in let d := (a -: s) -: b in
  finite f64 s = true /\ finite f64 d = true /\ (val f64 d = val f64 a - val f64 b - val f64 s)%R /\ val f64 s = rnd f64 (val f64 a - val f64 b).
Proof.
  intros Ba Fa Fb Ha Hb H s d. set (A := val f64 a) in *. set (B := val f64 b) in *.
  assert (RA : repr f64 A) by (apply repr_val; exact Fa). assert (RB : repr f64 B) by (apply repr_val; exact Fb).
  assert (AB : (Rabs (A - B) <= 32)%R) by (eapply Rle_trans; [apply Rabs_triang|]; rewrite Rabs_Ropp; lra).
  destruct (sub64 a b 32 Fa Fb AB ltac:(apply big1000; lra)) as [Fs Es]. fold A B in Es.
  assert (S32 : (Rabs (val f64 s) <= 32)%R) by (unfold s; rewrite Es; apply rnd_bounded; [change 32%R with (bpow radix2 5); apply repr_bpow; cbn; lia|exact AB]).
  destruct (sub64 a s 48 Fa Fs) as [Ft Et]; [eapply Rle_trans; [apply Rabs_triang|]; rewrite Rabs_Ropp; fold A; lra|apply big1000; lra|]. fold A in Et.
  assert (T48 : (Rabs (val f64 (a -: s)) <= 64)%R). { rewrite Et. apply rnd_bounded; [change 64%R with (bpow radix2 6); apply repr_bpow; cbn; lia|]. eapply Rle_trans; [apply Rabs_triang|]. rewrite Rabs_Ropp. lra. }
  destruct (sub64 (a -: s) b 80 Ft Fb) as [Fd Ed]; [eapply Rle_trans; [apply Rabs_triang|]; rewrite Rabs_Ropp; fold B; lra|apply big1000; lra|]. fold B in Ed.
  split; [exact Fs|]. split; [exact Fd|]. split; [|exact Es]. unfold d. rewrite Ed, Et. unfold s. rewrite Es. destruct H as [H | H].
  - apply fast2; assumption.
  - rewrite (repr_rnd f64 (A - B)) by exact H. replace (A - (A - B))%R with B by ring. rewrite (repr_rnd f64 B) by exact RB. replace (A - B - (A - B))%R with 0%R by ring. rewrite Rminus_eq_0. apply repr_rnd, repr_0.
Qed.

Definition red64 (X : R) (n y0 y1 : Z) : Prop :=
  let r := (X - IZR n * (PI / 2))%R in
  isbits f64 y0 /\ finite f64 y0 = true /\ isbits f64 y1 /\ finite f64 y1 = true /\
  (Rabs (val f64 y0 + val f64 y1 - r) <= bpow radix2 (-64) * Rabs (val f64 y0))%R /\
  (Rabs (val f64 y1) <= 9 / 4 * u * Rabs (val f64 y0))%R /\ (bpow radix2 (-95) <= Rabs (val f64 y0) <= 0.78542)%R.
Lemma b61 : bpow radix2 (-61) = (/ 2305843009213693952)%R. Proof. reflexivity. Qed.
Lemma b95 : bpow radix2 (-95) = (/ 39614081257132168796771975168)%R. Proof. reflexivity. Qed.
Lemma b64 : bpow radix2 (-64) = (/ 18446744073709551616)%R. Proof. reflexivity. Qed.
Lemma b180 : bpow radix2 (-180) = (/ 1532495540865888858358347027150309183618739122183602176)%R. Proof. reflexivity. Qed.
Lemma last_step X n S W y0 y1 : isbits f64 y0 -> finite f64 y0 = true -> isbits f64 y1 -> finite f64 y1 = true -> val f64 y0 = rnd f64 (S - W) -> (val f64 y1 = S - W - val f64 y0)%R ->
  let r := (X - IZR n * (PI / 2))%R in (Rabs (S - W - r) <= 4e-20 * Rabs (S - W))%R -> (bpow radix2 (-61) <= Rabs r <= 0.785405)%R -> red64 X n y0 y1.
Proof.
  intros B0 F0 B1 F1 E0 E1 r HE Hr.
  pose proof (rnd64_err (S - W)) as RE. rewrite <- E0 in RE. set (Y0 := val f64 y0) in *. set (Y1 := val f64 y1) in *.
  pose proof tiny180 as [T0 T1]. rewrite b180 in T1. set (t := bpow radix2 (-200)) in *. rewrite b61 in Hr.
  set (Q := (S - W)%R) in *. assert (A1 : (Rabs r <= Rabs Q + Rabs (Q - r))%R) by (replace r with (Q - (Q - r))%R at 1 by ring; eapply Rle_trans; [apply Rabs_triang|]; rewrite Rabs_Ropp; lra).
  assert (A2 : (Rabs Q <= Rabs r + Rabs (Q - r))%R) by (replace Q with (r + (Q - r))%R at 1 by ring; apply Rabs_triang).
  assert (A3 : (Rabs Q <= Rabs Y0 + Rabs (Y0 - Q))%R) by (replace Q with (Y0 - (Y0 - Q))%R at 1 by ring; eapply Rle_trans; [apply Rabs_triang|]; rewrite Rabs_Ropp; lra).
  assert (A4 : (Rabs Y0 <= Rabs Q + Rabs (Y0 - Q))%R) by (replace Y0 with (Q + (Y0 - Q))%R at 1 by ring; apply Rabs_triang).
  assert (A5 : Rabs Y1 = Rabs (Y0 - Q)) by (rewrite E1; rewrite <- Rabs_Ropp; f_equal; unfold Q; ring).
  unfold red64. rewrite b64, b95. fold r Y0 Y1. split; [exact B0|]. split; [exact F0|]. split; [exact B1|]. split; [exact F1|].
  replace (Y0 + Y1 - r)%R with (Q - r)%R by (rewrite E1; unfold Q; ring). rewrite A5.
  repeat split; lra.
Qed.
Lemma two_add a b : isbits f64 a -> finite f64 a = true -> finite f64 b = true -> (Rabs (val f64 a) <= 16)%R -> (Rabs (val f64 b) <= 16)%R ->
  (Rabs (val f64 b) <= Rabs (val f64 a))%R ->
  let s := a +: b in let d := (a -: s) +: b in
  finite f64 s = true /\ finite f64 d = true /\ (val f64 d = val f64 a - - val f64 b - val f64 s)%R /\ val f64 s = rnd f64 (val f64 a - - val f64 b).
Proof.
  intros Ba Fa Fb Ha Hb H s d. set (A := val f64 a) in *. set (B := val f64 b) in *.
  assert (RA : repr f64 A) by (apply repr_val; exact Fa). assert (RB : repr f64 B) by (apply repr_val; exact Fb).
  assert (AB : (Rabs (A + B) <= 32)%R) by (eapply Rle_trans; [apply Rabs_triang|]; lra).
  destruct (add64 a b 32 Fa Fb AB ltac:(apply big1000; lra)) as [Fs Es]. fold A B in Es.
  assert (S32 : (Rabs (val f64 s) <= 32)%R) by (unfold s; rewrite Es; apply rnd_bounded; [change 32%R with (bpow radix2 5); apply repr_bpow; cbn; lia|exact AB]).
  destruct (sub64 a s 48 Fa Fs) as [Ft Et]; [eapply Rle_trans; [apply Rabs_triang|]; rewrite Rabs_Ropp; fold A; lra|apply big1000; lra|]. fold A in Et.
  assert (T48 : (Rabs (val f64 (a -: s)) <= 64)%R). { rewrite Et. apply rnd_bounded; [change 64%R with (bpow radix2 6); apply repr_bpow; cbn; lia|]. eapply Rle_trans; [apply Rabs_triang|]. rewrite Rabs_Ropp. lra. }
  destruct (add64 (a -: s) b 80 Ft Fb) as [Fd Ed]; [eapply Rle_trans; [apply Rabs_triang|]; fold B; lra|apply big1000; lra|]. fold B in Ed.
  split; [exact Fs|]. split; [exact Fd|]. replace (A - - B)%R with (A + B)%R by ring. split; [|exact Es]. unfold d. rewrite Ed, Et. unfold s. rewrite Es.
  pose proof (fast2 A (- B) RA (repr_opp f64 B RB) ltac:(rewrite Rabs_Ropp; exact H)) as K. replace (A - - B)%R with (A + B)%R in K by ring.
  replace (rnd f64 (A - rnd f64 (A + B)) - - B)%R with (rnd f64 (A - rnd f64 (A + B)) + B)%R in K by ring. exact K.
Qed.
(** ** The constants *)
Definition p1 : R := (1686629713 / 1073741824)%R.
Definition p1t : R := (4701928774853425 / 77371252455336267181195264)%R.
Definition p2 : R := (2242054355 / 36893488147419103232)%R.
Definition p2t : R := (5376105825661043 / 2658455991569831745807614120560689152)%R.
Definition p3 : R := (160220439 / 79228162514264337593543950336)%R.
Definition p3t : R := (7744522442262977 / 91343852333181432387730302044767688728495783936)%R.
Lemma p1_val : val f64 PIO2_1 = p1. Proof. unfold p1. lit. Qed.
Lemma p1t_val : val f64 PIO2_1T = p1t. Proof. unfold p1t. lit. Qed.
Lemma p2_val : val f64 PIO2_2 = p2. Proof. unfold p2. lit. Qed.
Lemma p2t_val : val f64 PIO2_2T = p2t. Proof. unfold p2t. lit. Qed.
Lemma p3_val : val f64 PIO2_3 = p3. Proof. unfold p3. lit. Qed.
Lemma p3t_val : val f64 PIO2_3T = p3t. Proof. unfold p3t. lit. Qed.
(** the errors of the three splittings *)
Definition d1 : R := (PI / 2 - p1 - p1t)%R.
Definition d2 : R := (PI / 2 - p1 - p2 - p2t)%R.
Definition d3 : R := (PI / 2 - p1 - p2 - p3 - p3t)%R.
Lemma d_bounds : (Rabs d1 <= 3.6e-27 /\ Rabs d2 <= 1.1e-37 /\ Rabs d3 <= 1e-47)%R.
Proof.
  pose proof pio2_240 as [P1 P2]. unfold PB2 in P1, P2. set (q := (PI / 2)%R) in *.
  change (2 ^ 240) with 1766847064778384329583297500742918515827483896875618958121606201292619776 in *.
  unfold d1, d2, d3, p1, p1t, p2, p2t, p3, p3t. fold q. split; [|split]; apply Rabs_le; lra.
Qed.
(** ** The three stages, over the reals *)
Lemma absle (a b c : R) : (Rabs (a - b) <= c -> Rabs a <= Rabs b + c /\ Rabs b <= Rabs a + c)%R.
Proof.
  intros H. split.
  - replace a with (b + (a - b))%R at 1 by ring. eapply Rle_trans; [apply Rabs_triang|]. lra.
  - replace b with (a - (a - b))%R at 1 by ring. eapply Rle_trans; [apply Rabs_triang|]. rewrite Rabs_Ropp. lra.
Qed.
Lemma abs3 (a b c : R) : (Rabs (a + b + c) <= Rabs a + Rabs b + Rabs c)%R.
Proof. eapply Rle_trans; [apply Rabs_triang|]. pose proof (Rabs_triang a b). lra. Qed.
Lemma b17 : bpow radix2 (-17) = (/ 131072)%R. Proof. reflexivity. Qed.
Lemma b50 : bpow radix2 (-50) = (/ 1125899906842624)%R. Proof. reflexivity. Qed.
Lemma st1 X N D W Y0 : (/ 2 <= Rabs X)%R -> (Rabs N <= 1.3 * Rabs X)%R -> D = (X - N * p1)%R -> (Rabs (W - N * p1t) <= u * Rabs (N * p1t) + bpow radix2 (-200))%R ->
  (Rabs (Y0 - (D - W)) <= u * Rabs (D - W) + bpow radix2 (-200))%R -> (bpow radix2 (-17) * Rabs X <= Rabs Y0)%R ->
  (Rabs W <= Rabs D /\ Rabs (D - W - (X - N * (PI / 2))) <= / 295147905179352825856 * Rabs (D - W))%R.
Proof.
  intros HX HN -> HW HY L. rewrite b17 in L. pose proof tiny180 as [T0 T1]. rewrite b180 in T1. set (t := bpow radix2 (-200)) in *.
  destruct d_bounds as [DB _]. set (D := (X - N * p1)%R) in *.
  assert (E : (D - W - (X - N * (PI / 2)) = N * d1 + - (W - N * p1t))%R) by (unfold d1, D; ring). rewrite E.
  pose proof (Rabs_triang (N * d1) (- (W - N * p1t))) as TR. rewrite Rabs_Ropp in TR. rewrite (Rabs_mult N d1) in TR.
  assert (P : (Rabs (N * p1t) <= 6.1e-11 * Rabs N)%R) by (rewrite Rabs_mult, (Rabs_pos_eq p1t) by (unfold p1t; lra); pose proof (Rabs_pos N); unfold p1t; lra).
  destruct (absle _ _ _ HW) as [W1 _]. destruct (absle _ _ _ HY) as [Y1 _].
  assert (Q : (Rabs N * Rabs d1 <= Rabs N * 3.6e-27)%R) by (apply Rmult_le_compat_l; [apply Rabs_pos|exact DB]).
  assert (R1 : (Rabs (D - W) <= Rabs D + Rabs W)%R) by (eapply Rle_trans; [apply Rabs_triang|]; rewrite Rabs_Ropp; lra).
  split; lra.
Qed.
(** one step with the error of the subtraction carried over *)
Lemma stg T N p pt dd S W Wa : (0 < pt)%R -> let dl := (T - N * p - S)%R in
  (Rabs dl <= u * Rabs (T - N * p) + bpow radix2 (-200))%R -> (Rabs (Wa - N * pt) <= u * Rabs (N * pt) + bpow radix2 (-200))%R -> (Rabs (W - (Wa - dl)) <= u * Rabs (Wa - dl) + bpow radix2 (-200))%R ->
  let P := (Rabs N * pt)%R in
  (Rabs (S - W - (T - N * (p + pt + dd))) <= 2.1 * u * P + Rabs N * Rabs dd + 1.1 * u * u * Rabs (S - W) + 5 * bpow radix2 (-200) /\
   Rabs W <= 1.02 * P + 2 * u * Rabs (S - W) + 5 * bpow radix2 (-200))%R.
Proof.
  intros Hp dl H1 H2 H3 P. pose proof tiny180 as [T0 _]. set (t := bpow radix2 (-200)) in *. rewrite Rabs_mult, (Rabs_pos_eq pt) in H2 by lra. fold P in H2.
  assert (P0 : (0 <= P)%R) by (unfold P; apply Rmult_le_pos; [apply Rabs_pos|lra]).
  destruct (absle _ _ _ H2) as [Wa1 _]. rewrite Rabs_mult, (Rabs_pos_eq pt) in Wa1 by lra. fold P in Wa1.
  destruct (absle _ _ _ H3) as [W1 _].
  assert (WD : (Rabs (Wa - dl) <= Rabs Wa + Rabs dl)%R) by (eapply Rle_trans; [apply Rabs_triang|]; rewrite Rabs_Ropp; lra).
  assert (TS : (Rabs (T - N * p) <= Rabs S + Rabs dl)%R) by (replace (T - N * p)%R with (S + dl)%R by (unfold dl; ring); apply Rabs_triang).
  assert (SW : (Rabs S <= Rabs (S - W) + Rabs W)%R) by (replace S with ((S - W) + W)%R at 1 by ring; apply Rabs_triang).
  assert (E : (S - W - (T - N * (p + pt + dd)) = - (W - (Wa - dl)) + - (Wa - N * pt) + N * dd)%R) by (unfold dl; ring). rewrite E.
  pose proof (abs3 (- (W - (Wa - dl))) (- (Wa - N * pt)) (N * dd)) as TR. rewrite !Rabs_Ropp, (Rabs_mult N dd) in TR.
  set (G := Rabs (_ + _ + _)) in *. clearbody G. clear E. pose proof (Rabs_pos dl). pose proof (Rabs_pos W). pose proof (Rabs_pos Wa). pose proof (Rabs_pos (Wa - dl)).
  set (Nd := (Rabs N * Rabs dd)%R) in *. clearbody dl P Nd t.
  set (a1 := Rabs (Wa - dl)) in *. set (a2 := Rabs dl) in *. set (a3 := Rabs (T - N * p)) in *. set (a4 := Rabs Wa) in *. set (a5 := Rabs W) in *. set (a6 := Rabs S) in *. set (a7 := Rabs (S - W)) in *. set (a8 := Rabs (Wa - N * pt)) in *. set (a9 := Rabs (W - (Wa - dl))) in *.
  clearbody a1 a2 a3 a4 a5 a6 a7 a8 a9. split; lra.
Qed.
Lemma st2 X N S W Wa Y0 : (/ 2 <= Rabs X)%R -> (Rabs N <= 1.3 * Rabs X)%R -> let D := (X - N * p1)%R in let dl := (D - N * p2 - S)%R in
  (Rabs dl <= u * Rabs (D - N * p2) + bpow radix2 (-200))%R -> (Rabs (Wa - N * p2t) <= u * Rabs (N * p2t) + bpow radix2 (-200))%R -> (Rabs (W - (Wa - dl)) <= u * Rabs (Wa - dl) + bpow radix2 (-200))%R ->
  (Rabs (Y0 - (S - W)) <= u * Rabs (S - W) + bpow radix2 (-200))%R -> (bpow radix2 (-50) * Rabs X <= Rabs Y0)%R ->
  (Rabs W <= Rabs S /\ Rabs (S - W - (X - N * (PI / 2))) <= / 295147905179352825856 * Rabs (S - W))%R.
Proof.
  intros HX HN D dl H1 H2 H3 HY L. rewrite b50 in L.
  destruct (stg D N p2 p2t d2 S W Wa ltac:(unfold p2t; lra) H1 H2 H3) as [E1 E2].
  replace (D - N * (p2 + p2t + d2))%R with (X - N * (PI / 2))%R in E1 by (unfold D, d2; ring).
  pose proof tiny180 as [T0 T1]. rewrite b180 in T1. set (t := bpow radix2 (-200)) in *. destruct d_bounds as (_ & DB & _).
  assert (Q : (Rabs N * Rabs d2 <= Rabs N * 1.1e-37)%R) by (apply Rmult_le_compat_l; [apply Rabs_pos|exact DB]).
  assert (PP : (Rabs N * p2t <= Rabs N * 2.03e-21)%R) by (apply Rmult_le_compat_l; [apply Rabs_pos|unfold p2t; lra]).
  destruct (absle _ _ _ HY) as [Y1 _].
  assert (R1 : (Rabs (S - W) <= Rabs S + Rabs W)%R) by (eapply Rle_trans; [apply Rabs_triang|]; rewrite Rabs_Ropp; lra).
  set (aN := Rabs N) in *. set (q := (aN * p2t)%R) in *. split; lra.
Qed.
Lemma st3 X N T S W Wa : (Rabs N <= 1048577)%R -> T = (X - N * p1 - N * p2)%R -> let dl := (T - N * p3 - S)%R in (bpow radix2 (-61) <= Rabs (X - N * (PI / 2)))%R ->
  (Rabs dl <= u * Rabs (T - N * p3) + bpow radix2 (-200))%R -> (Rabs (Wa - N * p3t) <= u * Rabs (N * p3t) + bpow radix2 (-200))%R -> (Rabs (W - (Wa - dl)) <= u * Rabs (Wa - dl) + bpow radix2 (-200))%R ->
  (Rabs W <= Rabs S /\ Rabs (S - W - (X - N * (PI / 2))) <= / 295147905179352825856 * Rabs (S - W))%R.
Proof.
  intros HN HT dl HR H1 H2 H3. rewrite b61 in HR.
  destruct (stg T N p3 p3t d3 S W Wa ltac:(unfold p3t; lra) H1 H2 H3) as [E1 E2].
  replace (T - N * (p3 + p3t + d3))%R with (X - N * (PI / 2))%R in E1 by (rewrite HT; unfold d3; ring).
  pose proof tiny180 as [T0 T1]. rewrite b180 in T1. set (t := bpow radix2 (-200)) in *. destruct d_bounds as (_ & _ & DB).
  assert (Q : (Rabs N * Rabs d3 <= Rabs N * 1e-47)%R) by (apply Rmult_le_compat_l; [apply Rabs_pos|exact DB]).
  assert (PP : (Rabs N * p3t <= Rabs N * 8.5e-32)%R) by (apply Rmult_le_compat_l; [apply Rabs_pos|unfold p3t; lra]).
  set (r := (X - N * (PI / 2))%R) in *. destruct (absle _ _ _ E1) as [Y1 Y2].
  assert (R1 : (Rabs (S - W) <= Rabs S + Rabs W)%R) by (eapply Rle_trans; [apply Rabs_triang|]; rewrite Rabs_Ropp; lra).
  set (aN := Rabs N) in *. set (q := (aN * p3t)%R) in *. split; lra.
Qed.
