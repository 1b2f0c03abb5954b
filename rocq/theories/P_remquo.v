(** remquo, remquof, remainder, remainderf: proofs. *)
From Coq Require Import ZArith Reals Lia Lra Bool Psatz.
From Flocq Require Import Core Binary Sterbenz.
From Verif Require Import Base Spec SpecFun Format P_format Ieee P_ieee P_real M_basic P_round P_round2 P_minmax
  P_key M_bits P_bits M_fmod P_fmod P_neg.
Open Scope Z_scope.

(** ** Generic form *)
Definition g_nstep (F : fmt) (s : Z * Z) : option (ctl (Z * Z) (Z * Z)) :=
  let (i, ex) := s in
  let* t := ushr (width F) i (width F - 1) in
  if t =? 0 then
    let* ex := ssub 32 ex 1 in
    let* i := ushl (width F) i 1 in
    Some (Cont (i, ex))
  else Some (Ret (i, ex)).
Definition g_norm (F : fmt) (p : positive) (uxi ex : Z) : option (Z * Z) :=
  if ex =? 0 then
    let* i := ushl (width F) uxi (ew F + 1) in
    let* r := run p (g_nstep F) (i, ex) in
    let ex := snd r in
    let* ne := sneg 32 ex in
    let* k := sadd 32 ne 1 in
    let* uxi := ushl (width F) uxi k in
    Some (uxi, ex)
  else
    let* m := ushr (width F) (unot (width F) 0) (ew F + 1) in
    let* one := ushl (width F) 1 (mw F) in
    Some (Z.lor (Z.land uxi m) one, ex).
Definition g_step (F : fmt) (uy ey : Z) (s : Z * Z * Z) : option (ctl (Z * Z * Z) (Z * Z * Z)) :=
  let '(uxi, q, ex) := s in
  if ey <? ex then
    let i := wsub (width F) uxi uy in
    let* t := ushr (width F) i (width F - 1) in
    let* q := (if t =? 0 then uadd 32 q 1 else Some q) in
    let uxi := if t =? 0 then i else uxi in
    let* uxi := ushl (width F) uxi 1 in
    let* q := ushl 32 q 1 in
    let* ex := ssub 32 ex 1 in
    Some (Cont (uxi, q, ex))
  else Some (Ret (uxi, q, ex)).
Definition g_rstep (F : fmt) (s : Z * Z) : option (ctl (Z * Z) (Z * Z)) :=
  let (uxi, ex) := s in
  let* t := ushr (width F) uxi (mw F) in
  if t =? 0 then
    let* uxi := ushl (width F) uxi 1 in
    let* ex := ssub 32 ex 1 in
    Some (Cont (uxi, ex))
  else Some (Ret (uxi, ex)).
Definition g_reduce (F : fmt) (pm p : positive) (zx uxi ex uy ey : Z) : option (Z * Z * Z) :=
  let* r := run pm (g_step F uy ey) (uxi, 0, ex) in
  let '(uxi, q, ex) := r in
  let i := wsub (width F) uxi uy in
  let* t := ushr (width F) i (width F - 1) in
  let* q := (if t =? 0 then uadd 32 q 1 else Some q) in
  let uxi := if t =? 0 then i else uxi in
  if uxi =? 0 then Some (uxi, q, zx)
  else
    let* r := run p (g_rstep F) (uxi, ex) in
    Some (fst r, q, snd r).
(** [inc]: how line 88 increments the quotient *)
Definition g_finish (F : fmt) (two : Z) (inc : bool -> Z -> option Z) (sx sy : bool) (y uxi q ex ey : Z) : option (Z * Z) :=
  let* one := ushl (width F) 1 (mw F) in
  let* uxi :=
    (if 0 <? ex then
       let* u := usub (width F) uxi one in
       let* es := ushl (width F) (to_u (width F) ex) (mw F) in
       Some (Z.lor u es)
     else
       let* ne := sneg 32 ex in
       let* k := sadd 32 ne 1 in
       ushr (width F) uxi k) in
  let x := uxi in
  let y := if sy then fneg F y else y in
  let* ex1 := sadd 32 ex 1 in
  let c := (ex =? ey) || ((ex1 =? ey) &&
             (fgt F (fmul F two x) y || (feq F (fmul F two x) y && negb (q mod 2 =? 0)))) in
  let x := if c then fsub F x y else x in
  let* q := inc c q in
  let q := Z.land q 0x7fffffff in
  let* quo := (if xorb sx sy then sneg 32 (to_i 32 q) else Some (to_i 32 q)) in
  Some (if sx then fneg F x else x, quo).
Definition g_remquo (F : fmt) (pm p : positive) (zx two : Z) (inc : bool -> Z -> option Z) (x y : Z) : option (Z * Z) :=
  let ux := x in
  let uy := y in
  let* u := ushr (width F) ux (mw F) in
  let ex := to_i 32 (Z.land u (2 ^ ew F - 1)) in
  let* u := ushr (width F) uy (mw F) in
  let ey := to_i 32 (Z.land u (2 ^ ew F - 1)) in
  let* u := ushr (width F) ux (width F - 1) in
  let sx := negb (u =? 0) in
  let* u := ushr (width F) uy (width F - 1) in
  let sy := negb (u =? 0) in
  let* uy2 := ushl (width F) uy 1 in
  if (uy2 =? 0) || is_nan F y || (ex =? 2 ^ ew F - 1) then
    Some (fdiv F (fmul F x y) (fmul F x y), 0)
  else
  let* ux2 := ushl (width F) ux 1 in
  if ux2 =? 0 then Some (x, 0)
  else
  let* nx := g_norm F p ux ex in
  let (uxi, ex) := nx in
  let* ny := g_norm F p uy ey in
  let (uy, ey) := ny in
  let* ex1 := sadd 32 ex 1 in
  if negb (ex1 =? ey) then
    if ex <? ey then Some (x, 0)
    else
      let* r := g_reduce F pm p zx uxi ex uy ey in
      let '(uxi, q, ex) := r in
      g_finish F two inc sx sy y uxi q ex ey
  else g_finish F two inc sx sy y uxi 0 ex ey.
Definition inc_w (c : bool) (q : Z) : option Z := Some (if c then wadd 32 q 1 else q).
Definition inc_c (c : bool) (q : Z) : option Z := if c then uadd 32 q 1 else Some q.
Lemma remquo_g x y : remquo x y = g_remquo f64 2200 64 (-60) 0x4000000000000000 inc_w x y.
Proof. reflexivity. Qed.
Lemma remquof_g x y : remquof x y = g_remquo f32 300 32 (-30) 0x40000000 inc_c x y.
Proof. reflexivity. Qed.

(** ** Normalisation *)
Lemma top_zero F i : 0 <= i < 2 ^ width F -> i / 2 ^ (width F - 1) = 0 <-> i < 2 ^ (width F - 1).
Proof.
  intros H. pose proof (fmt_facts F). assert (0 < 2 ^ (width F - 1)) by (apply pow2_pos; unfold width; lia).
  rewrite Z.div_small_iff by lia. lia.
Qed.
Lemma g_norm_ok F p x : isbits F x -> iszero F x = false -> mw F < Zpos p ->
  exists ix ex, g_norm F p x (expf F x) = Some (ix, ex) /\ norm_post F x ix ex.
Proof.
  intros Hx Hz Hp. pose proof (fmt_facts F) as HF. pose proof (fields_range F x) as Hr. pose proof (pow_mw_ge F) as Hm.
  unfold g_norm. destruct (Z.eqb_spec (expf F x) 0) as [E0|E0].
  - rewrite E0. assert (S0 : 0 < sigf F x).
    { unfold iszero in Hz. rewrite E0 in Hz. cbn [Z.eqb andb] in Hz. apply Z.eqb_neq in Hz. lia. }
    rewrite shl_sig by assumption. cbn [bind].
    set (k := Z.log2 (sigf F x)). destruct (norm_sub_post F x k S0 E0 eq_refl) as (N & K).
    pose proof (log2_bounds _ S0) as L. fold k in L.
    assert (PW : 2 ^ width F = 2 * 2 ^ (width F - 1)).
    { rewrite <- Z.pow_succ_r by (unfold width; lia). f_equal; lia. }
    pose (I := fun s : Z * Z => let '(i, ex) := s in k + 1 - mw F <= ex <= 0 /\ i = sigf F x * 2 ^ (ew F + 1 - ex)).
    assert (Ib : forall ex, k + 1 - mw F <= ex <= 0 ->
       2 ^ (k + ew F + 1 - ex) <= sigf F x * 2 ^ (ew F + 1 - ex) < 2 ^ (k + ew F + 2 - ex)).
    { intros ex He. pose proof (pow2_pos (ew F + 1 - ex) ltac:(lia)).
      replace (k + ew F + 1 - ex) with (k + (ew F + 1 - ex)) by lia.
      replace (k + ew F + 2 - ex) with ((k + 1) + (ew F + 1 - ex)) by lia.
      rewrite (pow2_split k), (pow2_split (k + 1)) by lia.
      split; [apply Z.mul_le_mono_nonneg_r; lia|apply Z.mul_lt_mono_pos_r; lia]. }
    destruct (run_rule I (fun s => snd s - (k + 1 - mw F)) (fun r => snd r = k + 1 - mw F) (g_nstep F))
      with (p := p) (s := (sigf F x * 2 ^ (ew F + 1), 0)) as (r & Er & Hr').
    + intros [i ex] (I1 & I2). unfold g_nstep. pose proof (Ib ex I1) as B. rewrite <- I2 in B.
      assert (0 < 2 ^ (k + ew F + 1 - ex)) by (apply pow2_pos; lia).
      assert (B2 : 2 ^ (k + ew F + 2 - ex) <= 2 ^ width F) by (apply Z.pow_le_mono_r; unfold width; lia).
      rewrite ushr_ok by (unfold width; lia). cbn [bind].
      destruct (Z.eqb_spec (i / 2 ^ (width F - 1)) 0) as [T|T].
      * apply top_zero in T; [|lia].
        assert (C : k + 1 - mw F < ex).
        { apply Z.nle_gt. intros C. assert (2 ^ (width F - 1) <= 2 ^ (k + ew F + 1 - ex)); [|lia].
          apply Z.pow_le_mono_r; unfold width; lia. }
        unfold ssub. rewrite chk32 by lia. cbn [bind]. rewrite ushl_ok by (unfold width; lia). cbn [bind].
        eexists; split; [reflexivity|]. cbv beta iota. change (2 ^ 1) with 2. rewrite Z.mod_small by lia.
        split; [|cbn [snd]; lia]. split; [lia|].
        replace (ew F + 1 - (ex - 1)) with (Z.succ (ew F + 1 - ex)) by lia. rewrite Z.pow_succ_r by lia. rewrite I2. ring.
      * eexists; split; [reflexivity|]. cbv beta iota. cbn [snd].
        destruct (Z.eq_dec ex (k + 1 - mw F)) as [E|E]; [assumption|]. exfalso. apply T. apply top_zero; [lia|].
        eapply Z.lt_le_trans; [apply B|]. apply Z.pow_le_mono_r; unfold width; lia.
    + split; [lia|]. now rewrite Z.sub_0_r.
    + cbn [snd]. lia.
    + rewrite Er. cbn [bind]. rewrite Hr'. unfold sneg. rewrite chk32 by lia. cbn [bind].
      unfold sadd. rewrite chk32 by lia. cbn [bind].
      replace (- (k + 1 - mw F) + 1) with (mw F - k) by lia.
      rewrite shl_sub; try assumption; try lia; [|destruct N as [[_ N] _]; exact N].
      cbn [bind]. eexists _, _; split; [reflexivity|exact N].
  - destruct (norm_normal F x Hx E0) as [_ B].
    rewrite ushr_ok by (unfold width; lia). cbn [bind]. rewrite ushl_ok by (unfold width; lia). cbn [bind].
    rewrite Z.mul_1_l, Z.mod_small by apply pow_mw_width.
    assert (M : unot (width F) 0 / 2 ^ (ew F + 1) = 2 ^ mw F - 1).
    { unfold unot. symmetry. apply Z.div_unique with (2 ^ (ew F + 1) - 1); [left; pose proof (pow2_pos (ew F + 1)); lia|].
      unfold width. replace (mw F + ew F + 1) with ((ew F + 1) + mw F) by lia. rewrite (pow2_split (ew F + 1)) by lia. ring. }
    assert (E : Z.lor (sigf F x) (2 ^ mw F) = 2 ^ mw F + sigf F x).
    { rewrite Z.lor_comm. rewrite <- (Z.mul_1_l (2 ^ mw F)) at 1. rewrite lor_disjoint by lia. lia. }
    rewrite M, land_pow2m1 by lia. fold (sigf F x). rewrite E.
    eexists _, _; split; [reflexivity|exact B].
Qed.

(** ** The reduction loop *)
Lemma mod2_32 Q : Q mod 2 = 0 -> (Q mod 2 ^ 32) + 1 < 2 ^ 32 /\ ((Q mod 2 ^ 32) + 1) = (Q + 1) mod 2 ^ 32.
Proof.
  intros E. pose proof (Z.mod_pos_bound Q (2 ^ 32) eq_refl) as B.
  assert (M : (Q mod 2 ^ 32) mod 2 = 0).
  { rewrite <- Znumtheory.Zmod_div_mod; [assumption|reflexivity|reflexivity|]. exists (2 ^ 31). reflexivity. }
  pose proof (Z.div_mod (Q mod 2 ^ 32) 2 ltac:(lia)) as D. rewrite M in D.
  assert (L : Q mod 2 ^ 32 + 1 < 2 ^ 32).
  { change (2 ^ 32) with (2 * 2 ^ 31) in *. lia. }
  split; [exact L|]. apply Z.mod_unique with (Q / 2 ^ 32); [left; lia|].
  pose proof (Z.div_mod Q (2 ^ 32) ltac:(lia)). lia.
Qed.
Lemma shl_mod32 q Q : q = Q mod 2 ^ 32 -> ushl 32 q 1 = Some ((2 * Q) mod 2 ^ 32).
Proof.
  intros ->. rewrite ushl_ok by lia. f_equal. change (2 ^ 1) with 2. rewrite Z.mul_mod_idemp_l by lia. f_equal. lia.
Qed.
Lemma g_loop_ok F pm iy ey ix0 ex0 : normal F iy -> normal F ix0 -> 1 - mw F <= ey <= ex0 -> ex0 < 2 ^ ew F ->
  2 ^ ew F + mw F <= Zpos pm ->
  exists ix q Q, run pm (g_step F iy ey) (ix0, 0, ex0) = Some (ix, q, ey) /\
   0 <= ix < 2 * iy /\ q = Q mod 2 ^ 32 /\ Q mod 2 = 0 /\ 0 <= Q /\ ix0 * 2 ^ (ex0 - ey) = Q * iy + ix.
Proof.
  intros Ny Nx Hey Hex Hp. pose proof (fmt_facts F) as HF. pose proof (pow_mw_ge F) as Hm. pose proof (bias_facts F) as HB.
  assert (Y0 : 0 < iy) by (unfold normal in Ny; lia).
  pose (I := fun s : Z * Z * Z => let '(ix, q, ex) := s in
     ey <= ex <= ex0 /\ 0 <= ix < 2 * iy /\
     exists Q, q = Q mod 2 ^ 32 /\ Q mod 2 = 0 /\ 0 <= Q /\ ix0 * 2 ^ (ex0 - ex) = Q * iy + ix).
  destruct (run_rule I (fun s => snd s - ey)
     (fun s => let '(ix, q, ex) := s in ex = ey /\ 0 <= ix < 2 * iy /\
     exists Q, q = Q mod 2 ^ 32 /\ Q mod 2 = 0 /\ 0 <= Q /\ ix0 * 2 ^ (ex0 - ey) = Q * iy + ix)
     (g_step F iy ey)) with (p := pm) (s := (ix0, 0, ex0)) as ([[ix q] ex] & E & Ho).
  - intros [[ix q] ex] (I1 & I2 & Q & I3 & I4 & I5 & I6). unfold g_step.
    destruct (Z.ltb_spec ey ex) as [L|L].
    + destruct (sub_step F ix iy Ny I2) as (t & -> & Ht). cbn [bind].
      assert (PE : 2 ^ (ex0 - (ex - 1)) = 2 * 2 ^ (ex0 - ex)).
      { rewrite <- Z.pow_succ_r by lia. f_equal; lia. }
      destruct Ht as [(-> & Hle & Ew)|(Ht & Hlt)].
      * cbn [Z.eqb]. rewrite Ew. destruct (mod2_32 Q I4) as [M1 M2].
        rewrite I3. rewrite uadd_ok by assumption. cbn [bind]. rewrite M2.
        unfold normal in Ny. rewrite dbl by lia. cbn [bind]. rewrite (shl_mod32 _ (Q + 1)) by reflexivity. cbn [bind].
        unfold ssub. rewrite chk32 by lia. cbn [bind].
        eexists; split; [reflexivity|]. cbv beta iota. split; [|cbn [snd]; lia].
        split; [lia|]. split; [lia|]. exists (2 * (Q + 1)). split; [reflexivity|].
        split; [rewrite Z.mul_comm; apply Z.mod_mul; lia|]. split; [lia|]. rewrite PE. 
        replace (ix0 * (2 * 2 ^ (ex0 - ex))) with (2 * (ix0 * 2 ^ (ex0 - ex))) by ring. rewrite I6. ring.
      * rewrite (proj2 (Z.eqb_neq t 0) Ht). cbn [bind].
        unfold normal in Ny. rewrite dbl by lia. cbn [bind]. rewrite (shl_mod32 _ Q) by assumption. cbn [bind].
        unfold ssub. rewrite chk32 by lia. cbn [bind].
        eexists; split; [reflexivity|]. cbv beta iota. split; [|cbn [snd]; lia].
        split; [lia|]. split; [lia|]. exists (2 * Q). split; [reflexivity|].
        split; [rewrite Z.mul_comm; apply Z.mod_mul; lia|]. split; [lia|]. rewrite PE. 
        replace (ix0 * (2 * 2 ^ (ex0 - ex))) with (2 * (ix0 * 2 ^ (ex0 - ex))) by ring. rewrite I6. ring.
    + eexists; split; [reflexivity|]. cbv beta iota. assert (ex = ey) by lia. subst ex.
      split; [reflexivity|]. split; [assumption|]. exists Q. auto.
  - split; [lia|]. split; [unfold normal in *; lia|]. exists 0. rewrite Z.sub_diag. repeat split; lia.
  - cbn [snd]. lia.
  - destruct Ho as (-> & H1 & Q & H2 & H3 & H4 & H5). exists ix, q, Q. auto 10.
Qed.

(** the final normalisation loop *)
Lemma g_rloop_ok F p ix ey : 0 < ix < 2 * 2 ^ mw F -> mw F < Zpos p -> - 2 ^ 18 <= ey <= 2 ^ 18 ->
  run p (g_rstep F) (ix, ey) = Some (ix * 2 ^ (mw F - Z.log2 ix), ey - (mw F - Z.log2 ix)).
Proof.
  intros H Hp He. pose proof (fmt_facts F) as HF. destruct (shl_normal F ix H) as (_ & Hk & _ & Nn).
  pose proof (log2_bounds ix ltac:(lia)) as L. set (k := Z.log2 ix) in *. pose proof (pow_mw_ge F) as Hm.
  pose (I := fun s : Z * Z => let '(i, e) := s in ey - (mw F - k) <= e <= ey /\ i = ix * 2 ^ (ey - e)).
  destruct (run_rule I (fun s => snd s - (ey - (mw F - k)))
    (fun r => r = (ix * 2 ^ (mw F - k), ey - (mw F - k))) (g_rstep F)) with (p := p) (s := (ix, ey)) as (r & Er & Hr).
  - intros [i e] (I1 & I2). unfold g_rstep. rewrite ushr_ok by (unfold width; lia). cbn [bind].
    assert (Ib : 2 ^ (k + (ey - e)) <= i < 2 ^ (k + 1 + (ey - e))).
    { pose proof (pow2_pos (ey - e) ltac:(lia)). rewrite I2, (pow2_split k), (pow2_split (k + 1)) by lia.
      split; [apply Z.mul_le_mono_nonneg_r; lia|apply Z.mul_lt_mono_pos_r; lia]. }
    assert (0 < 2 ^ (k + (ey - e))) by (apply pow2_pos; lia).
    destruct (Z.eqb_spec (i / 2 ^ mw F) 0) as [T|T].
    + apply Z.div_small_iff in T; [|lia].
      assert (C : ey - (mw F - k) < e).
      { apply Z.nle_gt. intros C. assert (2 ^ mw F <= 2 ^ (k + (ey - e))); [|lia]. apply Z.pow_le_mono_r; lia. }
      rewrite dbl by lia. cbn [bind]. unfold ssub. rewrite chk32 by lia. cbn [bind].
      eexists; split; [reflexivity|]. cbv beta iota. split; [|cbn [snd]; lia]. split; [lia|].
      replace (ey - (e - 1)) with (Z.succ (ey - e)) by lia. rewrite Z.pow_succ_r by lia. rewrite I2. ring.
    + eexists; split; [reflexivity|]. cbv beta iota.
      destruct (Z.eq_dec e (ey - (mw F - k))) as [E|E].
      * rewrite I2, E. do 3 f_equal. lia.
      * exfalso. apply T. apply Z.div_small. split; [lia|]. eapply Z.lt_le_trans; [apply Ib|].
        apply Z.pow_le_mono_r; lia.
  - split; [lia|]. rewrite Z.sub_diag. lia.
  - cbn [snd]. lia.
  - rewrite Er. now rewrite Hr.
Qed.

(** ** Nearest quotient *)
Lemma ZnearestE_div X Y : 0 < Y -> ZnearestE (IZR X / IZR Y) =
  let Q := X / Y in let R := X mod Y in
  if (Y <? 2 * R) || ((2 * R =? Y) && negb (Z.even Q)) then Q + 1 else Q.
Proof.
  intros HY. cbv zeta. unfold Znearest.
  assert (PY : (0 < IZR Y)%R) by now apply IZR_lt.
  rewrite Zfloor_div by lia.
  pose proof (Z.div_mod X Y ltac:(lia)) as D. pose proof (Z.mod_pos_bound X Y HY) as B.
  set (Q := X / Y) in *. set (R := X mod Y) in *.
  assert (E : (IZR X / IZR Y - IZR Q = IZR R / IZR Y)%R).
  { rewrite D, plus_IZR, mult_IZR. field. lra. }
  rewrite E.
  assert (C : Rcompare (IZR R / IZR Y) (/ 2) = (2 * R ?= Y)).
  { rewrite <- (Rcompare_mult_r (IZR Y * 2)) by lra. 
    replace (IZR R / IZR Y * (IZR Y * 2))%R with (IZR (2 * R)) by (rewrite mult_IZR; field; lra).
    replace (/ 2 * (IZR Y * 2))%R with (IZR Y) by field. apply Rcompare_IZR. }
  rewrite C.
  assert (Ce : R <> 0 -> Zceil (IZR X / IZR Y) = Q + 1).
  { intros N. apply Zceil_imp. replace (Q + 1 - 1) with Q by ring.
    rewrite D, (plus_IZR (Y * Q)), mult_IZR, plus_IZR.
    replace ((IZR Y * IZR Q + IZR R) / IZR Y)%R with (IZR Q + IZR R / IZR Y)%R by (field; lra).
    assert (0 < IZR R)%R by (apply IZR_lt; lia). assert (IZR R < IZR Y)%R by (apply IZR_lt; lia).
    assert (0 < IZR R / IZR Y)%R by (apply Rdiv_lt_0_compat; assumption).
    assert (IZR R / IZR Y <= 1)%R.
    { apply (Rmult_le_reg_r (IZR Y)); [assumption|]. unfold Rdiv. rewrite Rmult_assoc, Rinv_l by lra. lra. }
    lra. }
  destruct (Z.compare_spec (2 * R) Y) as [K|K|K].
  - rewrite (proj2 (Z.ltb_ge _ _)) by lia. rewrite K, Z.eqb_refl. cbn [orb andb].
    destruct (negb (Z.even Q)); [apply Ce; lia|reflexivity].
  - rewrite (proj2 (Z.ltb_ge _ _)), (proj2 (Z.eqb_neq _ _)) by lia. reflexivity.
  - rewrite (proj2 (Z.ltb_lt _ _)) by lia. cbn [orb]. apply Ce. lia.
Qed.

(** ** Last phase *)
(** The quotient increment behaves on the operands that occur. *)
Definition inc_ok (F : fmt) (inc : bool -> Z -> option Z) : Prop :=
  forall c q, 0 <= q < 2 ^ 32 -> (c = true -> mw F <= 29 -> q + 1 < 2 ^ 32) ->
    exists q', inc c q = Some q' /\ q' = (if c then q + 1 else q) mod 2 ^ 32.
Lemma inc_w_ok F : inc_ok F inc_w.
Proof.
  intros c q Hq _. unfold inc_w, wadd. eexists; split; [reflexivity|]. destruct c; [reflexivity|].
  symmetry. now apply Z.mod_small.
Qed.
Lemma inc_c_ok : inc_ok f32 inc_c.
Proof.
  intros c q Hq H. unfold inc_c. destruct c.
  - specialize (H eq_refl ltac:(cbn; lia)). rewrite uadd_ok by assumption. eexists; split; [reflexivity|].
    symmetry. apply Z.mod_small. lia.
  - eexists; split; [reflexivity|]. symmetry. now apply Z.mod_small.
Qed.

Lemma abs_y F y : isbits F y ->
  let y' := if signbit F y then fneg F y else y in
  isbits F y' /\ signbit F y' = false /\ expf F y' = expf F y /\ sigf F y' = sigf F y.
Proof.
  intros H. cbv zeta. destruct (signbit F y) eqn:E.
  - destruct (fneg_fields F y H) as (A & B & C & D). rewrite E in B. auto.
  - auto.
Qed.
Lemma land31 q : Z.land q 0x7fffffff = q mod 2 ^ 31.
Proof. change 0x7fffffff with (2 ^ 31 - 1). apply land_pow2m1. lia. Qed.
Lemma mod31_32 a : (a mod 2 ^ 32) mod 2 ^ 31 = a mod 2 ^ 31.
Proof. symmetry. apply Znumtheory.Zmod_div_mod; [reflexivity|reflexivity|]. exists 2. reflexivity. Qed.

Lemma scale_eq F ix ex : ex < 2 ^ ew F - 1 ->
  (if 0 <? ex then
       let* u := usub (width F) ix (2 ^ mw F) in
       let* es := ushl (width F) (to_u (width F) ex) (mw F) in
       Some (Z.lor u es)
     else
       let* ne := sneg 32 ex in
       let* k := sadd 32 ne 1 in
       ushr (width F) ix k) =
  (if 0 <? ex then
           let* ix := usub (width F) ix (2 ^ mw F) in
           let* e := ucast (width F) ex in
           let* es := ushl (width F) e (mw F) in
           Some (Z.lor ix es)
         else
           let* ne := sneg 32 ex in
           let* k := sadd 32 ne 1 in
           ushr (width F) ix k).
Proof.
  intros H. destruct (Z.ltb_spec 0 ex); [|reflexivity]. pose proof (pow_mw_ge F).
  assert (2 ^ ew F <= 2 ^ width F) by (apply Z.pow_le_mono_r; pose proof (fmt_facts F); unfold width; lia).
  rewrite ucast_ok, to_u_small by lia. reflexivity.
Qed.

(** comparison of the scaled pairs *)
Lemma cmp_scaled F ix ex iy ey R Y : normal F ix -> normal F iy ->
  1 - mw F <= ex -> 1 - mw F <= ey -> scaled ix ex R -> scaled iy ey Y ->
  (ey < ex -> Y < R) /\ (ex = ey -> Y < 2 * R) /\ (ex + 1 < ey -> 2 * R < Y).
Proof.
  intros [X1 X2] [Y1 Y2] Hx Hy Sx Sy. pose proof (pow_mw_ge F) as Hm. pose proof (fmt_facts F) as HF.
  apply (scaled_iff _ _ _ (mw F)) in Sx; [|lia|lia]. apply (scaled_iff _ _ _ (mw F)) in Sy; [|lia|lia].
  pose proof (pow2_pos (ex - 1 + mw F) ltac:(lia)) as Px. pose proof (pow2_pos (ey - 1 + mw F) ltac:(lia)) as Py.
  split; [|split]; intros H.
  - assert (2 * 2 ^ (ey - 1 + mw F) <= 2 ^ (ex - 1 + mw F)).
    { rewrite <- Z.pow_succ_r by lia. apply Z.pow_le_mono_r; lia. }
    apply (Z.mul_lt_mono_pos_r (2 ^ mw F)); [lia|]. rewrite Sx, Sy. apply (lt_scale _ _ (2 ^ mw F)); lia.
  - subst ey. apply (Z.mul_lt_mono_pos_r (2 ^ mw F)); [lia|]. rewrite <- Z.mul_assoc, Sx, Sy.
    rewrite Z.mul_assoc. apply Z.mul_lt_mono_pos_r; lia.
  - assert (4 * 2 ^ (ex - 1 + mw F) <= 2 ^ (ey - 1 + mw F)).
    { change 4 with (2 ^ 2). rewrite <- pow2_split by lia. apply Z.pow_le_mono_r; lia. }
    apply (Z.mul_lt_mono_pos_r (2 ^ mw F)); [lia|]. rewrite <- Z.mul_assoc, Sx, Sy.
    replace (2 * (ix * 2 ^ (ex - 1 + mw F))) with (ix * (2 * 2 ^ (ex - 1 + mw F))) by ring.
    apply (lt_scale _ _ (2 ^ mw F)); lia.
Qed.

Lemma two_ok F two x y : isbits F x -> finite F x = true -> signbit F x = false ->
  isbits F two -> finite F two = true -> val F two = 2%R ->
  finite F y = true -> signbit F y = false -> 2 * magi F x < 2 ^ (mw F + 2 * bias F) ->
  fgt F (fmul F two x) y = (magi F y <? 2 * magi F x) /\ feq F (fmul F two x) y = (2 * magi F x =? magi F y).
Proof.
  intros Bx Fx Sx B2 F2 V2 Fy Sy HX.
  pose proof (fmul_spec F two x F2 Fx) as S. rewrite V2 in S.
  pose proof (bpow_gt_0 radix2 (emin F)) as P0.
  assert (M0 : 0 <= magi F x).
  { destruct (iszero F x) eqn:E; [rewrite magi_zero by assumption; lia|]. pose proof (magi_pos F x E). lia. }
  assert (Vx : val F x = (IZR (magi F x) * bpow radix2 (emin F))%R) by (rewrite val_magi, Sx; reflexivity).
  assert (Vy : val F y = (IZR (magi F y) * bpow radix2 (emin F))%R) by (rewrite val_magi, Sy; reflexivity).
  assert (E2 : (2 * val F x = IZR (2 * magi F x) * bpow radix2 (emin F))%R) by (rewrite mult_IZR, Vx; ring).
  destruct (rounds_to_exact F _ _ _ S) as (S1 & S2 & _).
  - apply repr_rnd. rewrite Rmult_comm. change 2%R with (bpow radix2 1). apply repr_scale; [|lia].
    now apply repr_val.
  - rewrite E2. rewrite Rabs_pos_eq.
    + apply Rlt_le_trans with (IZR (2 ^ (mw F + 2 * bias F)) * bpow radix2 (emin F))%R.
      * apply Rmult_lt_compat_r; [assumption|]. now apply IZR_lt.
      * pose proof (bias_facts F). pose proof (fmt_facts F). rewrite IZR_pow2 by lia. rewrite <- bpow_plus. apply bpow_le.
        unfold emin. lia.
    + apply Rmult_le_pos; [apply IZR_le; lia|lra].
  - unfold fgt, feq. rewrite fcmp_finite by assumption. rewrite S2, E2, Vy.
    rewrite Rcompare_mult_r by assumption. rewrite Rcompare_IZR.
    destruct (Z.compare_spec (2 * magi F x) (magi F y)) as [C|C|C].
    + rewrite (proj2 (Z.ltb_ge _ _)), (proj2 (Z.eqb_eq _ _)) by lia. auto.
    + rewrite (proj2 (Z.ltb_ge _ _)), (proj2 (Z.eqb_neq _ _)) by lia. auto.
    + rewrite (proj2 (Z.ltb_lt _ _)), (proj2 (Z.eqb_neq _ _)) by lia. auto.
Qed.

(** x - y for y/2 <= x < y *)
Lemma sub_exact F x y : isbits F x -> finite F x = true -> signbit F x = false ->
  finite F y = true -> signbit F y = false -> magi F x < magi F y -> magi F y <= 2 * magi F x ->
  let r := fsub F x y in
  isbits F r /\ finite F r = true /\ iszero F r = false /\
  val F r = (IZR (magi F x - magi F y) * bpow radix2 (emin F))%R.
Proof.
  intros Bx Fx Sx Fy Sy L1 L2 r.
  pose proof (bpow_gt_0 radix2 (emin F)) as P0.
  assert (M0 : 0 <= magi F x).
  { destruct (iszero F x) eqn:E; [rewrite magi_zero by assumption; lia|]. pose proof (magi_pos F x E). lia. }
  assert (Vx : val F x = (IZR (magi F x) * bpow radix2 (emin F))%R) by (rewrite val_magi, Sx; reflexivity).
  assert (Vy : val F y = (IZR (magi F y) * bpow radix2 (emin F))%R) by (rewrite val_magi, Sy; reflexivity).
  assert (E : (val F x - val F y = IZR (magi F x - magi F y) * bpow radix2 (emin F))%R) by (rewrite minus_IZR, Vx, Vy; ring).
  assert (I1 : (IZR (magi F x) < IZR (magi F y))%R) by now apply IZR_lt.
  assert (I2 : (IZR (magi F y) <= 2 * IZR (magi F x))%R) by (rewrite <- mult_IZR; now apply IZR_le).
  assert (I3 : (0 <= IZR (magi F x))%R) by now apply IZR_le.
  assert (Hr : repr F (val F x - val F y)).
  { apply sterbenz.
    - apply FLT_exp_valid. red. pose proof (fmt_facts F). lia.
    - apply FLT_exp_monotone.
    - now apply repr_val.
    - now apply repr_val.
    - rewrite Vx, Vy. split; nra. }
  pose proof (fsub_spec F x y Fx Fy) as S. fold r in S.
  destruct (rounds_to_exact F _ _ _ S) as (S1 & S2 & _).
  - now apply repr_rnd.
  - eapply Rle_lt_trans; [|apply (val_lt_max F y Fy)]. rewrite Vx, Vy. rewrite Rabs_left by nra.
    rewrite Rabs_pos_eq by nra. nra.
  - split; [apply fsub_isbits|]. split; [assumption|]. split; [|now rewrite S2].
    destruct (iszero F r) eqn:Z0; [|reflexivity]. rewrite (iszero_val F r Z0) in S2. rewrite E in S2.
    symmetry in S2. apply Rmult_integral in S2. destruct S2 as [S2|S2]; [|lra]. apply eq_IZR in S2. lia.
Qed.

Lemma magi_nonneg F z : 0 <= magi F z.
Proof. destruct (iszero F z) eqn:E; [rewrite magi_zero by assumption; lia|]. pose proof (magi_pos F z E). lia. Qed.

Section Finish.
Context (F : fmt) (two : Z) (inc : bool -> Z -> option Z) (x y iy ey : Z).
Context (Bx : isbits F x) (By : isbits F y) (Fx : finite F x = true) (Fy : finite F y = true).
Context (Zy : iszero F y = false) (Ny : normal F iy) (Ey : 1 - mw F <= ey < 2 ^ ew F - 1) (Sy : scaled iy ey (magi F y)).
Context (B2 : isbits F two) (F2 : finite F two = true) (V2 : val F two = 2%R) (Hinc : inc_ok F inc).
Let X := magi F x. Let Y := magi F y. Let u := bpow radix2 (emin F).


(** from the integer result to the specification *)
Lemma rem_final r Q R n : X = Q * Y + R -> 0 <= R < Y -> 0 <= Q -> isbits F r -> finite F r = true ->
  n = Q + (if (Y <? 2 * R) || ((2 * R =? Y) && negb (Z.even Q)) then 1 else 0) ->
  val F r = (IZR (sgz (signbit F x) (X - n * Y)) * u)%R -> (iszero F r = true -> signbit F r = signbit F x) ->
  rem_spec F ZnearestE x y r /\ quo_spec F x y (sgz (xorb (signbit F x) (signbit F y)) (n mod 2 ^ 31)).
Proof.
  intros HX HR HQ Br Fr Hn Hv Hz. pose proof (magi_pos F y Zy) as Yp. pose proof (magi_nonneg F x) as Xp.
  assert (U : (0 < u)%R) by apply bpow_gt_0.
  assert (EQ : X / Y = Q) by (symmetry; apply Z.div_unique with R; [left; lia|lia]).
  assert (ER : X mod Y = R) by (symmetry; apply Z.mod_unique with Q; [left; lia|lia]).
  assert (N : ZnearestE (IZR X / IZR Y) = n).
  { rewrite ZnearestE_div by assumption. rewrite EQ, ER. cbv zeta. rewrite Hn. destruct (_ || _); lia. }
  assert (NQ : ZnearestE (val F x / val F y) = sgz (xorb (signbit F x) (signbit F y)) n).
  { rewrite !val_magi. rewrite quot_ratio by (try assumption; apply bpow_gt_0). rewrite ZnearestE_sval. f_equal. exact N. }
  assert (N0 : 0 <= n) by (rewrite Hn; destruct (_ || _); lia).
  pose proof (Z.mod_pos_bound n (2 ^ 31) eq_refl) as M.
  split.
  - split; [assumption|]. split; [|split].
    + intros _ _ _. split; [assumption|]. split; [|assumption]. rewrite NQ, Hv. rewrite !val_magi. rewrite quot_rem. reflexivity.
    + intros _ I. rewrite (finite_not_inf F y Fy) in I. discriminate.
    + rewrite (finite_not_nan F x Fx), (finite_not_nan F y Fy), (finite_not_inf F x Fx), Zy. intuition discriminate.
  - intros _ _ _. rewrite NQ. split.
    + destruct (xorb _ _); cbn [sgz]; rewrite ?Z.abs_opp; rewrite !Z.abs_eq by lia; reflexivity.
    + destruct (signbit F x), (signbit F y); cbn [xorb sgz]; intros; split; intros; try lia; try congruence.
Qed.

Lemma g_finish_ok uxi q ex Q R : X = Q * Y + R -> 0 <= R < Y -> 0 <= Q -> q = Q mod 2 ^ 32 ->
  (R = 0 /\ uxi = 0 /\ ex <= 0 /\ ex + 1 < 1 - mw F /\ 1 - ex < width F) \/ (0 < R /\ normal F uxi /\ scaled uxi ex R /\ ex < 2 ^ ew F - 1) ->
  (Y <= 2 * R -> mw F <= 29 -> q + 1 < 2 ^ 32) ->
  exists r n, g_finish F two inc (signbit F x) (signbit F y) y uxi q ex ey = Some (r, n) /\
    rem_spec F ZnearestE x y r /\ quo_spec F x y n.
Proof.
  intros HX HR HQ Hq Hcase Hov.
  pose proof (fmt_facts F) as HF. pose proof (bias_facts F) as HB. pose proof (pow_mw_ge F) as Hm.
  pose proof (magi_pos F y Zy) as Yp.
  destruct (abs_y F y By) as (A1 & A2 & A3 & A4).
  unfold g_finish. rewrite (ushl_ok (width F) 1) by (unfold width; lia). rewrite Z.mul_1_l, Z.mod_small by apply pow_mw_width.
  cbn [bind]. rewrite scale_eq by lia.
  set (y' := if signbit F y then fneg F y else y) in *.
  assert (Fy' : finite F y' = true) by (unfold finite; rewrite A3; exact Fy).
  assert (My' : magi F y' = Y) by (unfold Y, magi; rewrite A3, A4; reflexivity).
  set (cc := (Y <? 2 * R) || ((2 * R =? Y) && negb (Z.even Q))).
  assert (Qm : q mod 2 = Q mod 2).
  { rewrite Hq. symmetry. apply Znumtheory.Zmod_div_mod; [reflexivity|reflexivity|]. exists (2 ^ 31). reflexivity. }
  assert (Qe : negb (q mod 2 =? 0) = negb (Z.even Q)) by (rewrite Qm, Zmod_even; destruct (Z.even Q); reflexivity).
  assert (K : exists u0, (if 0 <? ex then
           let* ix := usub (width F) uxi (2 ^ mw F) in
           let* e := ucast (width F) ex in
           let* es := ushl (width F) e (mw F) in
           Some (Z.lor ix es)
         else
           let* ne := sneg 32 ex in
           let* k := sadd 32 ne 1 in
           ushr (width F) uxi k) = Some u0 /\ isbits F u0 /\ signbit F u0 = false /\ finite F u0 = true /\ magi F u0 = R /\
      (ex =? ey) || ((ex + 1 =? ey) && (fgt F (fmul F two u0) y' || (feq F (fmul F two u0) y' && negb (q mod 2 =? 0)))) = cc /\
      - 2 ^ 19 <= ex <= 2 ^ 19).
  { destruct Hcase as [(R0 & U0 & E0 & E1 & E2)|(R0 & Nu & Su & Eu)].
    - exists 0. rewrite (proj2 (Z.ltb_ge _ _)) by lia. unfold width in E2. unfold sneg. rewrite chk32 by lia. cbn [bind].
      unfold sadd. rewrite chk32 by lia. cbn [bind]. rewrite ushr_ok by (unfold width; lia). rewrite U0.
      rewrite Z.div_0_l by (apply Z.pow_nonzero; lia). split; [reflexivity|].
      destruct (zero_fields F false) as (Z1 & Z2 & Z3 & _). rewrite <- ZERO_eq in *. unfold ZERO in *.
      split; [assumption|]. split; [assumption|]. split; [now apply iszero_finite|].
      split; [rewrite magi_zero by assumption; lia|]. split; [|lia].
      rewrite (proj2 (Z.eqb_neq ex ey)), (proj2 (Z.eqb_neq (ex + 1) ey)) by lia. unfold cc. cbn [orb andb].
      rewrite R0. rewrite (proj2 (Z.ltb_ge _ _)) by lia. rewrite (proj2 (Z.eqb_neq _ _)) by lia. reflexivity.
    - destruct (scale_ok F uxi ex R Nu Su R0 Eu) as (u0 & -> & W1 & W2 & W3).
      exists u0. split; [reflexivity|].
      destruct (mag_sign F false u0 W1) as (C1 & C2 & C3 & C4). rewrite <- ZERO_eq in *. unfold ZERO in *.
      rewrite Z.lor_0_r in *. rewrite W2 in C4.
      split; [assumption|]. split; [assumption|]. split; [assumption|]. split; [assumption|].
      assert (Exl : 1 - mw F <= ex) by lia. split; [|lia].
      destruct (cmp_scaled F uxi ex iy ey R Y Nu Ny Exl (proj1 Ey) Su Sy) as (D1 & D2 & D3).
      unfold cc. destruct (Z.eqb_spec ex ey) as [E|E].
      + specialize (D2 E). rewrite (proj2 (Z.ltb_lt _ _)) by lia. reflexivity.
      + destruct (Z.eqb_spec (ex + 1) ey) as [E'|E'].
        * destruct (two_ok F two u0 y') as (T1 & T2); try assumption.
          { rewrite C4. destruct Nu as [Nu1 Nu2].
            assert (SS : R * 2 ^ mw F = uxi * 2 ^ (ex - 1 + mw F)) by (apply (scaled_iff _ _ _ (mw F)); [lia|lia|assumption]).
            apply (Z.mul_lt_mono_pos_r (2 ^ mw F)); [lia|]. rewrite <- Z.mul_assoc, SS.
            replace (2 * (uxi * 2 ^ (ex - 1 + mw F))) with (uxi * 2 ^ (ex + mw F)).
            2:{ replace (ex + mw F) with (Z.succ (ex - 1 + mw F)) by lia. rewrite Z.pow_succ_r by lia. ring. }
            apply Z.lt_le_trans with ((2 * 2 ^ mw F) * 2 ^ (ex + mw F)).
            - apply Z.mul_lt_mono_pos_r; [apply pow2_pos; lia|lia].
            - replace (2 * 2 ^ mw F) with (2 ^ (mw F + 1)) by (rewrite Z.pow_add_r by lia; lia).
              rewrite <- !pow2_split by lia. apply Z.pow_le_mono_r; lia. }
          rewrite T1, T2, C4, My'. rewrite Qe. cbn [orb andb]. reflexivity.
        * cbn [orb andb]. assert (ex + 1 < ey) by lia. specialize (D3 H).
          rewrite (proj2 (Z.ltb_ge _ _)), (proj2 (Z.eqb_neq _ _)) by lia. reflexivity. }
  destruct K as (u0 & -> & U1 & U2 & U3 & U4 & Uc & Ub). cbn [bind].
  unfold sadd. rewrite chk32 by lia. cbn [bind]. rewrite Uc.
  destruct (Hinc cc q) as (q' & -> & Hq').
  { rewrite Hq. apply Z.mod_pos_bound. reflexivity. }
  { intros Hc. apply Hov. unfold cc in Hc. apply orb_prop in Hc as [Hc|Hc].
    - apply Z.ltb_lt in Hc. lia.
    - apply andb_prop in Hc as [Hc _]. apply Z.eqb_eq in Hc. lia. }
  cbn [bind]. rewrite land31.
  set (n := Q + (if cc then 1 else 0)).
  assert (En : q' mod 2 ^ 31 = n mod 2 ^ 31).
  { rewrite Hq', mod31_32. unfold n. rewrite Hq. destruct cc; [|rewrite mod31_32; f_equal; lia].
    rewrite <- (mod31_32 (Q mod 2 ^ 32 + 1)). rewrite Z.add_mod_idemp_l by lia. apply mod31_32. }
  rewrite En. pose proof (Z.mod_pos_bound n (2 ^ 31) eq_refl) as M.
  rewrite to_i_small by (change (32 - 1) with 31; lia).
  assert (QU : (if xorb (signbit F x) (signbit F y) then sneg 32 (n mod 2 ^ 31) else Some (n mod 2 ^ 31)) =
    Some (sgz (xorb (signbit F x) (signbit F y)) (n mod 2 ^ 31))).
  { destruct (xorb _ _); cbn [sgz]; [|reflexivity]. unfold sneg. apply chk_ok. change (32 - 1) with 31. lia. }
  rewrite QU. cbn [bind]. eexists _, _; split; [reflexivity|].
  assert (Vu : val F u0 = (IZR R * u)%R) by (rewrite val_magi, U2, U4; reflexivity).
  apply (rem_final _ Q R n); try assumption; try reflexivity.
  - destruct cc; [|destruct (signbit F x); [apply fneg_fields|]; assumption].
    destruct (signbit F x); [apply fneg_fields|]; apply fsub_isbits.
  - destruct cc eqn:Hc.
    + destruct (sub_exact F u0 y') as (S1 & S2 & S3 & S4); try assumption; try lia.
      { unfold cc in Hc. apply orb_prop in Hc as [Hc|Hc]; [apply Z.ltb_lt in Hc; lia|].
        apply andb_prop in Hc as [Hc _]. apply Z.eqb_eq in Hc. lia. }
      destruct (signbit F x); [rewrite fneg_finite|]; assumption.
    + destruct (signbit F x); [rewrite fneg_finite|]; assumption.
  - destruct cc eqn:Hc.
    + destruct (sub_exact F u0 y') as (S1 & S2 & S3 & S4); try assumption; try lia.
      { unfold cc in Hc. apply orb_prop in Hc as [Hc|Hc]; [apply Z.ltb_lt in Hc; lia|].
        apply andb_prop in Hc as [Hc _]. apply Z.eqb_eq in Hc. lia. }
      assert (EX : X - n * Y = R - Y) by (unfold n; rewrite HX; ring).
      rewrite EX. rewrite U4, My' in S4.
      destruct (signbit F x); [rewrite fneg_val by assumption|]; rewrite S4; cbn [sgz]; fold u; rewrite ?opp_IZR; ring.
    + assert (EX : X - n * Y = R) by (unfold n; rewrite HX; ring). rewrite EX.
      destruct (signbit F x); [rewrite fneg_val by assumption|]; rewrite Vu; cbn [sgz]; rewrite ?opp_IZR; ring.
  - destruct cc eqn:Hc.
    + destruct (sub_exact F u0 y') as (S1 & S2 & S3 & S4); try assumption; try lia.
      { unfold cc in Hc. apply orb_prop in Hc as [Hc|Hc]; [apply Z.ltb_lt in Hc; lia|].
        apply andb_prop in Hc as [Hc _]. apply Z.eqb_eq in Hc. lia. }
      intros Z0. exfalso. destruct (signbit F x); [rewrite fneg_iszero in Z0 by assumption|]; congruence.
    + intros _. destruct (signbit F x) eqn:Sx; [|assumption].
      destruct (fneg_fields F u0 U1) as (_ & -> & _). now rewrite U2.
Qed.
End Finish.

Lemma quo_no_overflow ix0 iy ix d Q : 0 <= d -> 0 <= Q -> ix0 < 2 * iy -> 0 < iy < 2 ^ 30 ->
  ix0 * 2 ^ d = Q * iy + ix -> 0 <= ix < iy -> Q mod 2 ^ 32 + 1 < 2 ^ 32.
Proof.
  intros Hd HQ H0 Hy E Hx. pose proof (Z.mod_pos_bound Q (2 ^ 32) eq_refl) as B.
  destruct (Z.eq_dec (Q mod 2 ^ 32) (2 ^ 32 - 1)) as [C|C]; [exfalso|lia].
  pose proof (Z.div_mod Q (2 ^ 32) ltac:(lia)) as D. rewrite C in D. set (k := Q / 2 ^ 32) in *.
  assert (K0 : 0 <= k) by (apply Z.div_pos; lia).
  pose proof (pow2_pos d Hd) as Pd.
  assert (L : Q < 2 * 2 ^ d).
  { apply (Z.mul_lt_mono_pos_r iy); [lia|]. nia. }
  assert (D31 : 31 <= d).
  { apply Z.nlt_ge. intros C'. assert (2 ^ d <= 2 ^ 30) by (apply Z.pow_le_mono_r; lia). lia. }
  assert (P : 2 ^ d = 2 ^ 31 * 2 ^ (d - 31)) by (rewrite <- pow2_split by lia; f_equal; lia).
  rewrite P in E.
  assert (Z : iy - ix = 2 ^ 31 * (2 * (k + 1) * iy - ix0 * 2 ^ (d - 31))).
  { replace (iy - ix) with ((Q + 1) * iy - ix0 * (2 ^ 31 * 2 ^ (d - 31))) by lia. rewrite D. change (2 ^ 32) with (2 * 2 ^ 31). ring. }
  set (w := 2 * (k + 1) * iy - ix0 * 2 ^ (d - 31)) in *. clearbody w. lia.
Qed.

Lemma g_reduce_ok F pm p zx x y ix0 ex0 iy ey : normal F ix0 -> normal F iy -> 1 - mw F <= ey <= ex0 -> ex0 < 2 ^ ew F ->
  2 ^ ew F + mw F <= Zpos pm -> mw F < Zpos p ->
  zx <= 0 -> zx + 1 < 1 - mw F -> 1 - zx < width F -> ey < 2 ^ ew F - 1 ->
  scaled ix0 ex0 (magi F x) -> scaled iy ey (magi F y) -> 0 < magi F y -> 
  exists uxi q ex Q R, g_reduce F pm p zx ix0 ex0 iy ey = Some (uxi, q, ex) /\
   magi F x = Q * magi F y + R /\ 0 <= R < magi F y /\ 0 <= Q /\ q = Q mod 2 ^ 32 /\
   ((R = 0 /\ uxi = 0 /\ ex <= 0 /\ ex + 1 < 1 - mw F /\ 1 - ex < width F) \/
    (0 < R /\ normal F uxi /\ scaled uxi ex R /\ ex < 2 ^ ew F - 1)) /\
   (mw F <= 29 -> q + 1 < 2 ^ 32).
Proof.
  intros Nx Ny Hey Hex Hpm Hp Z1 Z2 Z3 Heys Sx Sy Yp.
  pose proof (fmt_facts F) as HF. pose proof (bias_facts F) as HB. pose proof (pow_mw_ge F) as Hm.
  assert (Y0 : 0 < iy) by (unfold normal in Ny; lia).
  apply (scaled_iff _ _ _ (mw F)) in Sx; [|lia|lia]. apply (scaled_iff _ _ _ (mw F)) in Sy; [|lia|lia].
  pose proof (pow2_pos (ey - 1 + mw F) ltac:(lia)) as Pe.
  unfold g_reduce.
  destruct (g_loop_ok F pm iy ey ix0 ex0 Ny Nx) as (ix & q & Q & -> & Hi & Hq & HQ2 & HQ0 & HE); try lia. cbn [bind].
  destruct (sub_step F ix iy Ny Hi) as (t & -> & Ht). cbn [bind].
  assert (Fin : exists i Q', 0 <= i < iy /\ 0 <= Q' /\ ix0 * 2 ^ (ex0 - ey) = Q' * iy + i /\
     (if t =? 0 then uadd 32 q 1 else Some q) = Some (Q' mod 2 ^ 32) /\
     (if t =? 0 then wsub (width F) ix iy else ix) = i).
  { destruct Ht as [(-> & Hle & Ew)|(Ht & Hlt)].
    - exists (ix - iy), (Q + 1). rewrite Ew. cbn [Z.eqb]. destruct (mod2_32 Q HQ2) as [M1 M2].
      rewrite Hq. rewrite uadd_ok by assumption. rewrite M2. repeat split; try lia.
    - exists ix, Q. rewrite (proj2 (Z.eqb_neq t 0) Ht). rewrite Hq. repeat split; lia. }
  destruct Fin as (i & Q' & Hi' & HQ' & HE' & -> & ->). cbn [bind].
  set (R := magi F x - Q' * magi F y).
  assert (ER : R * 2 ^ mw F = i * 2 ^ (ey - 1 + mw F)).
  { unfold R. rewrite Z.mul_sub_distr_r, <- Z.mul_assoc, Sx, Sy.
    replace (ex0 - 1 + mw F) with ((ex0 - ey) + (ey - 1 + mw F)) by lia. rewrite (pow2_split (ex0 - ey)) by lia.
    rewrite Z.mul_assoc, HE'. ring. }
  assert (RB : 0 <= R < magi F y).
  { split.
    - apply (Z.mul_le_mono_pos_r 0 R (2 ^ mw F)); [lia|]. rewrite ER. rewrite Z.mul_0_l. apply Z.mul_nonneg_nonneg; lia.
    - apply (Z.mul_lt_mono_pos_r (2 ^ mw F)); [lia|]. rewrite ER, Sy. apply Z.mul_lt_mono_pos_r; lia. }
  assert (OV : mw F <= 29 -> Q' mod 2 ^ 32 + 1 < 2 ^ 32).
  { intros Hw. assert (2 ^ mw F <= 2 ^ 29) by (apply Z.pow_le_mono_r; lia). unfold normal in Nx, Ny.
    apply (quo_no_overflow ix0 iy i (ex0 - ey)); try assumption; lia. }
  destruct (Z.eqb_spec i 0) as [I0|I0].
  - exists i, (Q' mod 2 ^ 32), zx, Q', R. split; [reflexivity|]. split; [unfold R; ring|]. split; [assumption|].
    split; [assumption|]. split; [reflexivity|]. split; [|assumption]. left. rewrite I0, Z.mul_0_l in ER.
    apply Z.eq_mul_0 in ER. repeat split; try lia.
  - unfold normal in Ny. rewrite g_rloop_ok by lia. cbn [bind fst snd].
    eexists _, _, _, Q', R. split; [reflexivity|]. split; [unfold R; ring|]. split; [assumption|].
    split; [assumption|]. split; [reflexivity|]. split; [|assumption]. right.
    destruct (shl_normal F i) as (_ & Hk & _ & Nn); [lia|].
    split; [apply (pos_of_mul _ (2 ^ mw F) i (2 ^ (ey - 1 + mw F))); lia|]. split; [assumption|].
    split; [|lia]. apply scaled_shift; [lia|]. apply (scaled_iff _ _ _ (mw F)); [lia|lia|assumption].
Qed.

Lemma sign_read F x : isbits F x -> negb (x / 2 ^ (width F - 1) =? 0) = signbit F x.
Proof.
  intros H. unfold signbit. replace (width F - 1) with (mw F + ew F) by (unfold width; lia).
  pose proof (fmt_facts F). assert (P : 0 < 2 ^ (mw F + ew F)) by (apply pow2_pos; lia). unfold isbits in H.
  destruct (Z.leb_spec (2 ^ (mw F + ew F)) x) as [L|L].
  - rewrite (proj2 (Z.eqb_neq _ _)); [reflexivity|]. intros E. apply Z.div_small_iff in E; lia.
  - rewrite Z.div_small by lia. reflexivity.
Qed.

Lemma rem_self F x y : isbits F x -> isbits F y -> finite F x = true -> finite F y = true -> iszero F y = false ->
  2 * magi F x < magi F y -> rem_spec F ZnearestE x y x /\ quo_spec F x y 0.
Proof.
  intros Bx By Fx Fy Zy H. pose proof (magi_pos F y Zy) as Yp.
  assert (X0 := magi_nonneg F x).
  destruct (rem_final F x y 0 Fx Fy Zy ltac:(pose proof (bias_facts F); pose proof (fmt_facts F); lia) x 0 (magi F x) 0) as [A B]; try assumption; try lia; try reflexivity.
  - rewrite (proj2 (Z.ltb_ge _ _)), (proj2 (Z.eqb_neq _ _)) by lia. reflexivity.
  - rewrite Z.mul_0_l, Z.sub_0_r. apply val_magi.
  - split; [assumption|]. change (0 mod 2 ^ 31) with 0 in B. destruct (xorb _ _); exact B.
Qed.

Theorem g_remquo_ok F pm p zx two inc x y : 2 ^ ew F + mw F <= Zpos pm -> mw F < Zpos p ->
  zx <= 0 -> zx + 1 < 1 - mw F -> 1 - zx < width F ->
  isbits F two -> finite F two = true -> val F two = 2%R -> inc_ok F inc ->
  isbits F x -> isbits F y ->
  exists r q, g_remquo F pm p zx two inc x y = Some (r, q) /\ rem_spec F ZnearestE x y r /\ quo_spec F x y q.
Proof.
  intros Hpm Hp Z1 Z2 Z3 B2 F2 V2 Hinc Bx By.
  pose proof (fmt_facts F) as HF. pose proof (bias_facts F) as HB. pose proof (pow_mw_ge F) as Hm.
  pose proof (fields_range F x) as Rx. pose proof (fields_range F y) as Ry.
  unfold g_remquo. do 2 (rewrite ushr_ok by (unfold width; lia); cbn [bind]).
  rewrite !exp_read by assumption. do 2 (rewrite ushr_ok by (unfold width; lia); cbn [bind]).
  rewrite !sign_read by assumption. rewrite shl1 by assumption. cbn [bind]. rewrite is_nan_eq by assumption.
  destruct ((2 * magz F y =? 0) || isnan F y || (expf F x =? 2 ^ ew F - 1)) eqn:G.
  { eexists _, _; split; [reflexivity|].
    assert (H : isnan F x = true \/ isnan F y = true \/ isinf F x = true \/ iszero F y = true).
    { apply orb_prop in G as [G|G]; [apply orb_prop in G as [G|G]|].
      - right; right; right. apply zero_magz. apply Z.eqb_eq in G. lia.
      - now right; left.
      - unfold isnan, isinf. rewrite G. destruct (sigf F x =? 0); cbn; tauto. }
    split; [split; [apply fdiv_isbits|]; split; [|split]|].
    - intros Fx Fy Zy. rewrite (finite_not_nan F x Fx), (finite_not_nan F y Fy), (finite_not_inf F x Fx), Zy in H.
      intuition discriminate.
    - intros Fx Iy. rewrite (finite_not_nan F x Fx), (finite_not_inf F x Fx) in H.
      unfold isinf in Iy. apply andb_prop in Iy as [I1 I2]. unfold isnan, iszero in H. rewrite I1, I2 in H.
      cbn [negb andb] in H. rewrite andb_true_r in H. apply Z.eqb_eq in I1. rewrite I1 in H.
      rewrite (proj2 (Z.eqb_neq _ _)) in H by lia. intuition discriminate.
    - intros _. apply prod_div_nan; assumption.
    - intros Fx Fy Zy. rewrite (finite_not_nan F x Fx), (finite_not_nan F y Fy), (finite_not_inf F x Fx), Zy in H.
      intuition discriminate. }
  apply orb_false_elim in G as [G G3]. apply orb_false_elim in G as [G1 G2].
  apply Z.eqb_neq in G1, G3.
  assert (Fx : finite F x = true) by (apply finite_iff; lia).
  assert (Zy : iszero F y = false).
  { destruct (iszero F y) eqn:E; [|reflexivity]. apply zero_magz in E. lia. }
  rewrite shl1 by assumption. cbn [bind].
  assert (Infy : isinf F y = true -> rem_spec F ZnearestE x y x /\ quo_spec F x y 0).
  { intros Iy. split.
    - split; [assumption|]. split; [|split].
      + intros _ Fy. rewrite (finite_not_inf F y Fy) in Iy. discriminate.
      + reflexivity.
      + rewrite (finite_not_nan F x Fx), (finite_not_inf F x Fx), G2, Zy. intuition discriminate.
    - intros _ Fy. rewrite (finite_not_inf F y Fy) in Iy. discriminate. }
  assert (Fy0 : isinf F y = true \/ finite F y = true).
  { destruct (class_cases F y) as [C|[C|C]]; intuition congruence. }
  destruct (Z.eqb_spec (2 * magz F x) 0) as [X0|X0].
  { exists x, 0. split; [reflexivity|]. destruct Fy0 as [Iy|Fy]; [now apply Infy|].
    apply rem_self; try assumption. rewrite magi_zero by (apply zero_magz; lia). pose proof (magi_pos F y Zy). lia. }
  assert (Zx : iszero F x = false).
  { destruct (iszero F x) eqn:E; [|reflexivity]. apply zero_magz in E. lia. }
  destruct (g_norm_ok F p x Bx Zx Hp) as (ix & ex & -> & Nx & Ex & Sx). cbn [bind].
  destruct (g_norm_ok F p y By Zy Hp) as (iy & ey & Hny & Ny & Ey & Sy). rewrite Hny. cbn [bind].
  pose proof (finite_lt_sat F x Fx) as Lx.
  unfold sadd. rewrite chk32 by lia. cbn [bind].
  destruct Fy0 as [Iy|Fy].
  { (* infinite y has the largest exponent *)
    assert (Eey : ey = 2 ^ ew F - 1).
    { unfold isinf in Iy. apply andb_prop in Iy as [I1 _]. apply Z.eqb_eq in I1.
      unfold g_norm in Hny. rewrite I1 in Hny. rewrite (proj2 (Z.eqb_neq _ _)) in Hny by lia.
      rewrite !ushr_ok, !ushl_ok in Hny by (unfold width; lia). cbn [bind] in Hny. congruence. }
    destruct (Z.eq_dec (ex + 1) ey) as [E|E].
    2:{ rewrite (proj2 (Z.eqb_neq _ _)) by assumption. cbn [negb]. rewrite (proj2 (Z.ltb_lt _ _)) by lia.
        exists x, 0. split; [reflexivity|]. now apply Infy. }
    rewrite E, Z.eqb_refl. cbn [negb].
    (* then x is normal with the largest exponent: 2x is compared with infinity *)
    unfold g_finish. rewrite (ushl_ok (width F) 1) by (unfold width; lia). rewrite Z.mul_1_l, Z.mod_small by apply pow_mw_width.
    cbn [bind]. rewrite scale_eq by lia.
    pose proof (magi_pos F x Zx) as Xp.
    destruct (scale_ok F ix ex (magi F x) Nx Sx Xp) as (u0 & -> & W1 & W2 & W3); [lia|]. cbn [bind].
    unfold sadd. rewrite chk32 by lia. cbn [bind]. rewrite (proj2 (Z.eqb_neq ex ey)) by lia. rewrite E, Z.eqb_refl. cbn [orb andb].
    destruct (abs_y F y By) as (A1 & A2 & A3 & A4).
    set (y' := if signbit F y then fneg F y else y) in *.
    assert (K : Z.lor u0 (zero F false) = u0) by (unfold zero, mkbits; apply Z.lor_0_r).
    destruct (mag_sign F false u0 W1) as (C1 & C2 & C3 & C4). rewrite K in *. rewrite W2 in C4.
    assert (NF : finite F y' = false).
    { destruct (finite F y') eqn:Ef; [|reflexivity]. exfalso. assert (Ef' : finite F y = true) by (unfold finite in *; now rewrite A3 in Ef).
      rewrite (finite_not_inf F y Ef') in Iy. discriminate. }
    assert (G : fgt F (fmul F two u0) y' = false).
    { destruct (fgt F (fmul F two u0) y') eqn:G; [|reflexivity]. apply fgt_spec in G. destruct G as (_ & _ & G).
      rewrite NF in G. destruct G as [G _]. congruence. }
    rewrite G. change (negb (0 mod 2 =? 0)) with false. rewrite andb_false_r. cbn [orb].
    destruct (Hinc false 0) as (q' & -> & Eq); [lia|discriminate|]. cbn [bind]. rewrite Eq. change (Z.land (0 mod 2 ^ 32) 2147483647) with 0.
    change (to_i 32 0) with 0. change (sneg 32 0) with (Some 0).
    assert (RX : (if signbit F x then fneg F u0 else u0) = x).
    { destruct (fneg_fields F u0 C1) as (D1 & D2 & D3 & D4).
      apply (val_sign_inj F); try assumption.
      - destruct (signbit F x); assumption.
      - destruct (signbit F x); [rewrite fneg_finite|]; assumption.
      - rewrite !val_magi. destruct (signbit F x) eqn:Sg.
        + unfold magi at 1. rewrite D2, D3, D4. fold (magi F u0). rewrite C2, C4. reflexivity.
        + rewrite C2, C4. reflexivity.
      - destruct (signbit F x) eqn:Sg; [rewrite D2, C2|rewrite C2]; reflexivity. }
    rewrite RX. exists x, 0. split; [destruct (xorb _ _); reflexivity|]. now apply Infy. }
  pose proof (finite_lt_sat F y Fy) as Ly.
  pose proof (magi_pos F y Zy) as Yp.
  destruct (Z.eqb_spec (ex + 1) ey) as [E|E]; cbn [negb].
  - apply (g_finish_ok F two inc x y iy ey) with (Q := 0) (R := magi F x); try assumption; try lia; try reflexivity.
    + assert (magi F x < magi F y).
      { destruct Nx as [Nx1 Nx2]. destruct Ny as [Ny1 Ny2].
        apply (scaled_iff _ _ _ (mw F)) in Sx; [|lia|lia]. apply (scaled_iff _ _ _ (mw F)) in Sy; [|lia|lia].
        apply (Z.mul_lt_mono_pos_r (2 ^ mw F)); [lia|]. rewrite Sx, Sy. apply (lt_scale _ _ (2 ^ mw F)); [lia|apply pow2_pos; lia|lia|lia|].
        - rewrite <- Z.pow_succ_r by lia. apply Z.pow_le_mono_r; lia. }
      pose proof (magi_pos F x Zx). lia.
    + right. split; [now apply magi_pos|]. split; [assumption|]. split; [assumption|]. lia.
  - destruct (Z.ltb_spec ex ey) as [L|L].
    + exists x, 0. split; [reflexivity|]. apply rem_self; try assumption.
      apply (cmp_scaled F ix ex iy ey); try assumption; lia.
    + destruct (g_reduce_ok F pm p zx x y ix ex iy ey) as (uxi & q & ex' & Q & R & -> & H1 & H2 & H3 & H4 & H5 & H6);
        try assumption; try lia. cbn [bind].
      apply (g_finish_ok F two inc x y iy ey) with (Q := Q) (R := R); try assumption; try lia.
Qed.

Lemma pow_float F e : 1 - bias F <= e <= bias F ->
  let x := mkbits F false (bias F + e) 0 in
  isbits F x /\ finite F x = true /\ val F x = bpow radix2 e /\ signbit F x = false.
Proof.
  intros He. pose proof (bias_facts F). pose proof (pow_mw_ge F). pose proof (fmt_facts F). cbv zeta.
  destruct (mkbits_fields F false (bias F + e) 0) as (E1 & E2 & E3); try lia.
  split; [apply mkbits_range; lia|]. split; [unfold finite; rewrite E2; apply Z.ltb_lt; lia|].
  split; [|exact E1].
  rewrite val_mkbits by lia. unfold mag_of. rewrite (proj2 (Z.eqb_neq _ _)) by lia. cbn [sval].
  rewrite Z.add_0_r. change 2 with (radix_val radix2). rewrite IZR_Zpower by lia. rewrite <- bpow_plus. f_equal. lia.
Qed.

Theorem remquo_ok x y : isbits f64 x -> isbits f64 y ->
  exists r q, remquo x y = Some (r, q) /\ rem_spec f64 ZnearestE x y r /\ quo_spec f64 x y q.
Proof.
  intros. rewrite remquo_g. destruct (pow_float f64 1 ltac:(cbn; lia)) as (A & B & C & _).
  apply g_remquo_ok; try assumption; try apply inc_w_ok; cbn; lia.
Qed.
Theorem remquof_ok x y : isbits f32 x -> isbits f32 y ->
  exists r q, remquof x y = Some (r, q) /\ rem_spec f32 ZnearestE x y r /\ quo_spec f32 x y q.
Proof.
  intros. rewrite remquof_g. destruct (pow_float f32 1 ltac:(cbn; lia)) as (A & B & C & _).
  apply g_remquo_ok; try assumption; try apply inc_c_ok; cbn; lia.
Qed.
Theorem remainder_ok x y : isbits f64 x -> isbits f64 y ->
  exists r, remainder x y = Some r /\ rem_spec f64 ZnearestE x y r.
Proof.
  intros Hx Hy. destruct (remquo_ok x y Hx Hy) as (r & q & E & H & _). exists r. unfold remainder. now rewrite E.
Qed.
Theorem remainderf_ok x y : isbits f32 x -> isbits f32 y ->
  exists r, remainderf x y = Some r /\ rem_spec f32 ZnearestE x y r.
Proof.
  intros Hx Hy. destruct (remquof_ok x y Hx Hy) as (r & q & E & H & _). exists r. unfold remainderf. now rewrite E.
Qed.
