(** Property C32: special cases of pow and powf. *)
From Coq Require Import ZArith Reals Lia Lra Bool List.
From Flocq Require Import Core.
From Verif Require Import Base Spec SpecElem SpecPow SpecFun Format M_basic P_format Ieee P_ieee P_real P_key P_neg M_scalbn M_sqrt M_elib M_pow P_elem P_elem2
  P_ival P_ival2 P_tot P_exp P_lit P_nan P_dom P_pow.
Import ListNotations.
Open Scope Z_scope.
Open Scope fl_scope.

(** The code after the integer test, powf.rs lines 93-334 *)
Definition powf_tail (x y hx hy ix iy yisint : Z) : option Z :=
    if iy =? 0x7f800000 then
      if ix =? 0x3f800000 then Some 0x3f800000 (* 1.0 *)
      else if 0x3f800000 <? ix then
        if 0 <=? hy then Some y
        else Some 0 (* 0.0 *)
      else if 0 <=? hy then Some 0 (* 0.0 *)
      else Some (fneg f32 y)
    else if iy =? 0x3f800000 then
      if 0 <=? hy then Some x
      else Some (0x3f800000 (* 1.0 *) /' x)
    else if hy =? 0x40000000 then Some (x *' x)
    else if (hy =? 0x3f000000) && (0 <=? hx) then M_sqrt.sqrtf x
    else 
      let ax := fabs f32 x in
      if ((ix =? 0x7f800000) || (ix =? 0)) || (ix =? 0x3f800000) then
        let z := ax in
        let z :=
          (if hy <? 0 then
             let z := 0x3f800000 (* 1.0 *) /' z in
             z
           else z) in
        let* z :=
          (if hx <? 0 then
             let* v12 := ssub 32 ix 0x3f800000 in
             let z :=
               (if (Z.lor v12 yisint) =? 0 then
                  let z := (z -' z) /' (z -' z) in
                  z
                else 
                  let z :=
                    (if yisint =? 1 then
                       let z := fneg f32 z in
                       z
                     else z) in
                  z) in
             Some z
           else Some z) in
        Some z
      else 
        let sn := 0x3f800000 (* 1.0 *) in
        if hx <? 0 then
          if yisint =? 0 then Some ((x -' x) /' (x -' x))
          else 
            let sn :=
              (if yisint =? 1 then
                 let sn := 0xbf800000 (* -1.0 *) in
                 sn
               else sn) in
            rs_powf_1 y ax sn hy ix iy
        else rs_powf_1 y ax sn hy ix iy.
(** The code after the integer test, pow.rs lines 153-393 *)
Definition pow_tail (x y hx lx hy ly ix iy yisint : Z) : option Z :=
    if ly =? 0 then
      if iy =? 0x7ff00000 then
        let* v20 := ssub 32 ix 0x3ff00000 in
        if (Z.lor v20 (to_i 32 lx)) =? 0 then Some 0x3ff0000000000000 (* 1.0 *)
        else if 0x3ff00000 <=? ix then
          if 0 <=? hy then Some y
          else Some 0 (* 0.0 *)
        else if 0 <=? hy then Some 0 (* 0.0 *)
        else Some (fneg f64 y)
      else if iy =? 0x3ff00000 then
        if 0 <=? hy then Some x
        else Some (0x3ff0000000000000 (* 1.0 *) /: x)
      else if hy =? 0x40000000 then Some (x *: x)
      else if hy =? 0x3fe00000 then
        if 0 <=? hx then M_sqrt.sqrt x
        else rs_pow_1 x y hx lx hy ix iy yisint
      else rs_pow_1 x y hx lx hy ix iy yisint
    else rs_pow_1 x y hx lx hy ix iy yisint.

(** ** Words of the operands *)
Lemma to_i32_eq a : 0 <= a < 2 ^ 32 -> to_i 32 a = if a <? 2 ^ 31 then a else a - 2 ^ 32.
Proof. intros H. unfold to_i. cbv zeta. now rewrite Z.mod_small. Qed.
Lemma hx32 x : isbits f32 x -> to_i 32 x = (if signbit f32 x then a32 x - 2 ^ 31 else a32 x) /\ Z.land (to_i 32 x) 0x7fffffff = a32 x.
Proof.
  intros B. destruct (bits32 x B) as [E R]. destruct (signbit f32 x); unfold bs in E.
  - assert (T : to_i 32 x = a32 x - 2 ^ 31). { rewrite to_i32_eq by (unfold isbits, width in B; cbn [mw ew f32] in B; lia). zdec; lia. }
    split; [exact T|]. rewrite T. change 0x7fffffff with (2 ^ 31 - 1). rewrite land_pow2m1 by lia. rewrite <- (Z.mod_add _ 1) by lia.
    replace (a32 x - 2 ^ 31 + 1 * 2 ^ 31) with (a32 x) by lia. now apply Z.mod_small.
  - assert (T : to_i 32 x = a32 x). { rewrite to_i32_eq by (unfold isbits, width in B; cbn [mw ew f32] in B; lia). zdec; lia. }
    split; [exact T|]. rewrite T. change 0x7fffffff with (2 ^ 31 - 1). rewrite land_pow2m1 by lia. now apply Z.mod_small.
Qed.
Lemma hx64 x : isbits f64 x -> to_i 32 (Z.shiftr x 32) = (if signbit f64 x then a64 x / 2 ^ 32 - 2 ^ 31 else a64 x / 2 ^ 32) /\
  Z.land (to_i 32 (Z.shiftr x 32)) 0x7fffffff = a64 x / 2 ^ 32.
Proof.
  intros B. pose proof (a64_hi x B) as R. rewrite <- to_i_mod by lia. change (Z.shiftr x 32 mod 2 ^ 32) with (to_u 32 (Z.shiftr x 32)). rewrite hw64 by assumption.
  set (h := a64 x / 2 ^ 32) in *. destruct (signbit f64 x); unfold bs.
  - assert (T : to_i 32 (1 * 2 ^ 31 + h) = h - 2 ^ 31). { rewrite to_i32_eq by lia. zdec; lia. }
    split; [exact T|]. rewrite T. change 0x7fffffff with (2 ^ 31 - 1). rewrite land_pow2m1 by lia. rewrite <- (Z.mod_add _ 1) by lia.
    replace (h - 2 ^ 31 + 1 * 2 ^ 31) with h by lia. now apply Z.mod_small.
  - assert (T : to_i 32 (0 * 2 ^ 31 + h) = h). { rewrite to_i32_eq by lia. zdec; lia. }
    split; [exact T|]. rewrite T. change 0x7fffffff with (2 ^ 31 - 1). rewrite land_pow2m1 by lia. now apply Z.mod_small.
Qed.

(** ** powf *)
Lemma powf_head x y : isbits f32 x -> isbits f32 y -> isnan f32 x = false -> isnan f32 y = false -> iszero f32 y = false -> x <> 0x3f800000 ->
  exists c, rs_powf x y = powf_tail x y (to_i 32 x) (to_i 32 y) (a32 x) (a32 y) c /\ (signbit f32 x = false -> c = 0) /\
    (signbit f32 x = true -> yi32 (a32 y) = Some c /\ (finite f32 y = true -> icode f32 y c) /\ (finite f32 y = false -> c = 2)).
Proof.
  intros Bx By Nx Ny Zy X1. destruct (hx32 x Bx) as [Ex Lx]. destruct (hx32 y By) as [Ey Ly]. destruct (yi32_ok y By Ny Zy) as (c & Ec & C1 & C2).
  rewrite zer32 in Zy by assumption. rewrite nan32 in Nx, Ny by assumption. destruct (bits32 x Bx) as [EEx Rx].
  unfold rs_powf. cbv zeta. rewrite Lx, Ly, Zy, Nx, Ny. cbn [orb].
  assert (H1 : (to_i 32 x =? 0x3f800000) = false). { apply Z.eqb_neq. rewrite Ex. destruct (signbit f32 x); unfold bs in EEx; lia. }
  rewrite H1. assert (H2 : (to_i 32 x <? 0) = signbit f32 x). { rewrite Ex. destruct (signbit f32 x); [apply Z.ltb_lt|apply Z.ltb_ge]; lia. }
  rewrite H2. destruct (signbit f32 x) eqn:S.
  - exists c. split; [|split; [discriminate|auto]]. match goal with |- bind (bind ?t _) _ = _ => change t with (yi32 (a32 y)) end. rewrite Ec. unfold powf_tail. rewrite H2. reflexivity.
  - exists 0. split; [unfold powf_tail; rewrite H2; reflexivity|]. split; [reflexivity|discriminate].
Qed.
Lemma neq_eqb a b : a <> b -> (a =? b) = false. Proof. apply Z.eqb_neq. Qed.
(** zeros and infinities raised to a number that is not treated separately *)
Lemma powf_edge e s t a c : e = 0 \/ e = 0x7f800000 -> 0 < a < 0x7f800000 -> a <> 0x3f800000 -> c = 0 \/ c = 1 \/ c = 2 -> (s = false -> c = 0) ->
  ~ (t = false /\ a = 0x40000000) -> ~ (s = false /\ t = false /\ a = 0x3f000000) ->
  powf_tail (bs s * 2 ^ 31 + e) (bs t * 2 ^ 31 + a) (if s then e - 2 ^ 31 else e) (if t then a - 2 ^ 31 else a) e a c =
  Some (bs (c =? 1) * 2 ^ 31 + (if t then 0x7f800000 - e else e)).
Proof.
  intros He A A1 C S0 T1 T2. unfold powf_tail. rewrite !neq_eqb by lia.
  assert (H1 : ((if t then a - 2 ^ 31 else a) =? 0x40000000) = false) by (apply Z.eqb_neq; destruct t; [lia|]; intros ->; tauto).
  assert (H2 : ((if t then a - 2 ^ 31 else a) =? 0x3f000000) && (0 <=? (if s then e - 2 ^ 31 else e)) = false).
  { apply andb_false_iff. destruct s; [right; apply Z.leb_gt; lia|left]. apply Z.eqb_neq. destruct t; [lia|]. intros ->. tauto. }
  rewrite H1, H2. assert (H3 : ((if t then a - 2 ^ 31 else a) <? 0) = t) by (destruct t; [apply Z.ltb_lt|apply Z.ltb_ge]; lia). rewrite H3.
  clear H1 H2 H3. destruct s, t, He as [-> | ->], C as [-> | [-> | ->]]; try (specialize (S0 eq_refl); discriminate); vm_compute; reflexivity.
Qed.
Lemma icode_odd F y c : (finite F y = true -> icode F y c) -> (finite F y = false -> c = 2) -> (c = 0 \/ c = 1 \/ c = 2) /\ (c = 1 <-> odd_integral F y).
Proof.
  intros C1 C2. destruct (finite F y) eqn:Fy.
  - specialize (C1 eq_refl). destruct C1 as [[-> H]|[[-> H]|[-> [H1 H2]]]]; (split; [tauto|]).
    + split; [discriminate|]. intros K. apply odd_int in K. tauto.
    + tauto.
    + split; [discriminate|tauto].
  - rewrite (C2 eq_refl). split; [tauto|]. split; [discriminate|]. intros [K _]. congruence.
Qed.
Lemma powf_base e s y : e = 0 \/ e = 0x7f800000 -> isbits f32 y -> isnan f32 y = false -> iszero f32 y = false ->
  exists o : bool, (o = true <-> odd_integral f32 y) /\
  rs_powf (bs s * 2 ^ 31 + e) y = Some (bs (s && o) * 2 ^ 31 + (if signbit f32 y then 0x7f800000 - e else e)).
Proof.
  intros He By Ny Zy. destruct (yi32_ok y By Ny Zy) as (c0 & Ec0 & C1 & C2). destruct (icode_odd f32 y c0 C1 C2) as [C3 C4].
  exists (c0 =? 1). split; [rewrite Z.eqb_eq; exact C4|].
  destruct (bits32_intro s e) as (Bx & Sx & Ax); [destruct He as [-> | ->]; lia|].
  destruct (powf_head _ y Bx By) as (c & E & D1 & D2); try assumption.
  { rewrite nan32, Ax by assumption. apply Z.ltb_ge. lia. } { destruct s, He as [-> | ->]; discriminate. }
  rewrite E. clear E. rewrite Sx in D1, D2.
  destruct (hx32 _ Bx) as [-> _]. destruct (hx32 y By) as [-> _]. rewrite Ax, Sx.
  pose proof Ny as Ny'. rewrite nan32, Z.ltb_ge in Ny' by assumption. rewrite zer32, Z.eqb_neq in Zy by assumption. destruct (bits32 y By) as [EY RY].
  set (a := a32 y) in *. clearbody a. set (t := signbit f32 y) in *. clearbody t. subst y.
  assert (EC : c = if s then c0 else 0). { destruct s; [|auto]. destruct (D2 eq_refl) as [E _]. congruence. } subst c.
  assert (HT : (s && (c0 =? 1))%bool = ((if s then c0 else 0) =? 1)) by now destruct s. rewrite HT.
  assert (DC : forall P : Prop, (a = 0x7f800000 -> P) -> (a = 0x3f800000 -> P) -> (t = false /\ a = 0x40000000 -> P) -> (s = false /\ t = false /\ a = 0x3f000000 -> P) ->
    (0 < a < 0x7f800000 -> a <> 0x3f800000 -> ~ (t = false /\ a = 0x40000000) -> ~ (s = false /\ t = false /\ a = 0x3f000000) -> P) -> P).
  { intros P P1 P2 P3 P4 P5. destruct (Z.eq_dec a 0x7f800000); [auto|]. destruct (Z.eq_dec a 0x3f800000); [auto|].
    destruct (Z.eq_dec a 0x40000000); [destruct t; [|auto]; apply P5; lia || (intros [? ?]; discriminate) || (intros [? [? ?]]; discriminate) |].
    destruct (Z.eq_dec a 0x3f000000); [destruct s, t; [| | |auto]; apply P5; lia || (intros [? ?]; discriminate) || (intros [? [? ?]]; discriminate) |].
    apply P5; lia. }
  apply DC; clear DC.
  - intros ->. vm_compute in Ec0. injection Ec0 as <-. destruct s, t, He as [-> | ->]; vm_compute; reflexivity.
  - intros ->. vm_compute in Ec0. injection Ec0 as <-. destruct s, t, He as [-> | ->]; vm_compute; reflexivity.
  - intros [-> ->]. vm_compute in Ec0. injection Ec0 as <-. destruct s, He as [-> | ->]; vm_compute; reflexivity.
  - intros [-> [-> ->]]. destruct He as [-> | ->]; vm_compute; reflexivity.
  - intros. apply powf_edge; try assumption; destruct s; try tauto; discriminate.
Qed.
Lemma mag1_32 x : isbits f32 x -> finite f32 x = true -> ((Rabs (val f32 x) < 1)%R -> a32 x < 0x3f800000) /\ ((1 < Rabs (val f32 x))%R -> 0x3f800000 < a32 x).
Proof.
  intros B Fx. destruct (val_a32 x B) as (Ba & Ea & Fa & Va). rewrite <- Va, <- one32. destruct (bits32 x B) as [_ R]. destruct (pos32 (a32 x) R) as (_ & _ & Sa).
  split; intros H; [apply vlt32 in H; [|assumption]|apply vgt32 in H; [|assumption]]; rewrite Sa, Ea in H; exact H.
Qed.
Lemma val_neg_sign F x : (val F x < 0)%R -> signbit F x = true.
Proof. intros H. destruct (signbit F x) eqn:S; [reflexivity|]. exfalso. revert H. unfold val. rewrite S. unfold sval. pose proof (fields_range F x). pose proof (mag_of_nonneg F (expf F x) (sigf F x) ltac:(lia)). lra. Qed.
Theorem C32_powf : pow_special f32 rs_powf.
Proof.
  assert (OB : isbits f32 (onef f32 false)) by (vm_compute; split; [discriminate|reflexivity]).
  assert (Z0 : forall s, zero f32 s = bs s * 2 ^ 31 + 0) by (intros []; reflexivity).
  assert (I0 : forall s, infinity f32 s = bs s * 2 ^ 31 + 0x7f800000) by (intros []; reflexivity).
  split.
  - intros x y Bx By Zy. destruct (hx32 y By) as [_ Ly]. rewrite zer32 in Zy by assumption. unfold rs_powf. cbv zeta. rewrite Ly, Zy. reflexivity.
  - intros y By. unfold rs_powf. cbv zeta. change (to_i 32 (onef f32 false) =? 0x3f800000) with true. cbv iota. destruct (_ =? 0); reflexivity.
  - intros x y Bx By N Zy X1. destruct (hx32 x Bx) as [Ex Lx]. destruct (hx32 y By) as [Ey Ly]. destruct (bits32 x Bx) as [EEx Rx].
    assert (N' : isnan f32 x || isnan f32 y = true) by (destruct N as [-> | ->]; [reflexivity|apply orb_true_r]).
    rewrite zer32 in Zy by assumption. unfold rs_powf. cbv zeta. rewrite Lx, Ly, Zy. rewrite <- (nan32 x Bx), <- (nan32 y By), N'.
    assert (H1 : (to_i 32 x =? 0x3f800000) = false). { apply Z.eqb_neq. rewrite Ex. change (onef f32 false) with 0x3f800000 in X1. destruct (signbit f32 x); unfold bs in EEx; lia. }
    rewrite H1. eexists. split; [reflexivity|]. split; [apply fadd_isbits|]. now apply fadd_nan.
  - intros []; vm_compute; reflexivity.
  - intros x y Bx By Fx Vx Fy NI. pose proof (val_neg_sign f32 x Vx) as Sx. destruct (neg32 x Bx Fx Vx) as (_ & Ax).
    assert (Nx : isnan f32 x = false) by (rewrite nan32, Z.ltb_ge by assumption; lia).
    assert (Ay : a32 y < 0x7f800000) by (rewrite fin32, Z.ltb_lt in Fy by assumption; lia).
    assert (Ny : isnan f32 y = false) by (rewrite nan32, Z.ltb_ge by assumption; lia).
    assert (Zy : iszero f32 y = false). { destruct (iszero f32 y) eqn:Z; [|reflexivity]. exfalso. apply NI. split; [assumption|]. exists 0. now apply iszero_val. }
    destruct (powf_head x y Bx By Nx Ny Zy) as (c & E & _ & D). { intros ->. discriminate Sx. }
    destruct (D Sx) as (Ec & C1 & _). specialize (C1 Fy).
    assert (c = 0) as ->. { destruct C1 as [[-> _]|[[_ O]|[_ [I _]]]]; [reflexivity| |tauto]. apply odd_int in O. tauto. }
    rewrite E. clear E. destruct (hx32 x Bx) as [Hx _]. destruct (hx32 y By) as [Hy _]. rewrite Sx in Hx.
    assert (Y1 : a32 y <> 0x3f800000) by (intros K; rewrite K in Ec; vm_compute in Ec; discriminate).
    assert (Y2 : to_i 32 y <> 0x40000000). { rewrite Hy. destruct (signbit f32 y); [lia|]. intros K; rewrite K in Ec; vm_compute in Ec; discriminate. }
    unfold powf_tail. cbv zeta. rewrite (neq_eqb (a32 y)) by lia. rewrite (neq_eqb (a32 y)) by assumption. rewrite (neq_eqb (to_i 32 y)) by assumption.
    assert (H2 : (0 <=? to_i 32 x) = false) by (apply Z.leb_gt; lia). rewrite H2, andb_false_r.
    assert (H3 : (to_i 32 x <? 0) = true) by (apply Z.ltb_lt; lia). rewrite H3.
    rewrite (neq_eqb (a32 x) 0x7f800000), (neq_eqb (a32 x) 0) by lia. cbn [orb].
    destruct (Z.eqb_spec (a32 x) 0x3f800000) as [X1|X1].
    + assert (X : x = 0xbf800000). { destruct (bits32 x Bx) as [K _]. rewrite K, X1, Sx. reflexivity. } rewrite X.
      change (fabs f32 0xbf800000) with 0x3f800000. change (0x3f800000 /' 0x3f800000) with 0x3f800000.
      destruct (to_i 32 y <? 0); (eexists; split; [vm_compute; reflexivity|split; [vm_compute; split; [discriminate|reflexivity]|vm_compute; reflexivity]]).
    + change (0 =? 0) with true. cbv iota. eexists. split; [reflexivity|]. rewrite (fsub_self f32 x Fx). split; [vm_compute; split; [discriminate|reflexivity]|vm_compute; reflexivity].
  - intros s y (By & Ny & Zy & Sy) O. rewrite Z0. destruct (powf_base 0 s y) as (o & OO & E); try assumption; [now left|]. rewrite E, Sy. apply OO in O. subst o. now destruct s.
  - intros s y (By & Ny & Zy & Sy) O. rewrite Z0. destruct (powf_base 0 s y) as (o & OO & E); try assumption; [now left|]. rewrite E, Sy. destruct o; [tauto|]. now destruct s.
  - intros s y (By & Ny & Zy & Sy) O. rewrite Z0. destruct (powf_base 0 s y) as (o & OO & E); try assumption; [now left|]. rewrite E, Sy. apply OO in O. subst o. now destruct s.
  - intros s y (By & Ny & Zy & Sy) O. rewrite Z0. destruct (powf_base 0 s y) as (o & OO & E); try assumption; [now left|]. rewrite E, Sy. destruct o; [tauto|]. now destruct s.
  - intros x s Bx Fx V. destruct (mag1_32 x Bx Fx) as [V1 _]. specialize (V1 V). destruct (bits32 x Bx) as [_ Rx].
    assert (Nx : isnan f32 x = false) by (rewrite nan32, Z.ltb_ge by assumption; lia).
    destruct (powf_head x (infinity f32 s) Bx) as (c & E & _); try assumption; try (now destruct s); [intros ->; revert V1; vm_compute; discriminate|].
    rewrite E. unfold powf_tail. replace (a32 (infinity f32 s)) with 0x7f800000 by now destruct s. change (0x7f800000 =? 0x7f800000) with true. cbv iota.
    rewrite neq_eqb by lia. replace (0x3f800000 <? a32 x) with false by (symmetry; apply Z.ltb_ge; lia). destruct s; reflexivity.
  - intros x s Bx Nx V.
    assert (V1 : 0x3f800000 < a32 x). { destruct (finite f32 x) eqn:Fx; [apply mag1_32; auto|]. rewrite fin32, Z.ltb_ge in Fx by assumption. lia. }
    destruct (powf_head x (infinity f32 s) Bx) as (c & E & _); try assumption; try (now destruct s); [intros ->; revert V1; vm_compute; discriminate|].
    rewrite E. unfold powf_tail. replace (a32 (infinity f32 s)) with 0x7f800000 by now destruct s. change (0x7f800000 =? 0x7f800000) with true. cbv iota.
    rewrite neq_eqb by lia. replace (0x3f800000 <? a32 x) with true by (symmetry; apply Z.ltb_lt; lia). destruct s; reflexivity.
  - intros s y (By & Ny & Zy & Sy) O. rewrite I0. destruct (powf_base 0x7f800000 s y) as (o & OO & E); try assumption; [now right|]. rewrite E, Sy. apply OO in O. subst o. now destruct s.
  - intros s y (By & Ny & Zy & Sy) O. rewrite I0. destruct (powf_base 0x7f800000 s y) as (o & OO & E); try assumption; [now right|]. rewrite E, Sy. destruct o; [tauto|]. now destruct s.
  - intros s y (By & Ny & Zy & Sy) O. rewrite I0. destruct (powf_base 0x7f800000 s y) as (o & OO & E); try assumption; [now right|]. rewrite E, Sy. apply OO in O. subst o. now destruct s.
  - intros s y (By & Ny & Zy & Sy) O. rewrite I0. destruct (powf_base 0x7f800000 s y) as (o & OO & E); try assumption; [now right|]. rewrite E, Sy. destruct o; [tauto|]. now destruct s.
Qed.
Print Assumptions C32_powf.

(** ** pow *)
Lemma lo64 x : 0 <= to_u 32 x < 2 ^ 32. Proof. apply Z.mod_pos_bound. lia. Qed.
Lemma lor0 a b : 0 <= a -> 0 <= b -> (Z.lor a b =? 0) = (a =? 0) && (b =? 0).
Proof. apply lor_eq0. Qed.
Lemma pow_head x y : isbits f64 x -> isbits f64 y -> isnan f64 x = false -> isnan f64 y = false -> iszero f64 y = false -> x <> 0x3ff0000000000000 ->
  exists c, rs_pow x y = pow_tail x y (to_i 32 (Z.shiftr x 32)) (to_u 32 x) (to_i 32 (Z.shiftr y 32)) (to_u 32 y) (a64 x / 2 ^ 32) (a64 y / 2 ^ 32) c /\ (signbit f64 x = false -> c = 0) /\
    (signbit f64 x = true -> yi64 (a64 y / 2 ^ 32) (to_u 32 y) = Some c /\ (finite f64 y = true -> icode f64 y c) /\ (finite f64 y = false -> c = 2)).
Proof.
  intros Bx By Nx Ny Zy X1. destruct (hx64 x Bx) as [Ex Lx]. destruct (hx64 y By) as [Ey Ly]. destruct (yi64_ok y By Ny Zy) as (c & Ec & C1 & C2).
  rewrite zer64, Z.eqb_neq in Zy by assumption. rewrite nan64, Z.ltb_ge in Nx, Ny by assumption. destruct (bits64 x Bx) as [EEx Rx].
  pose proof (lw64 x Bx) as [Wx Vx]. pose proof (lw64 y By) as [Wy Vy]. change (get_low_word x) with (to_u 32 x) in *. change (get_low_word y) with (to_u 32 y) in *.
  pose proof (a64_hi x Bx) as Hx. pose proof (a64_hi y By) as Hy.
  unfold rs_pow. cbv zeta. rewrite Lx, Ly.
  assert (T : to_u 32 (a64 y / 2 ^ 32) = a64 y / 2 ^ 32) by (apply Z.mod_small; lia). rewrite T.
  set (h := a64 x / 2 ^ 32) in *. set (l := to_u 32 x) in *. set (hy := a64 y / 2 ^ 32) in *. set (ly := to_u 32 y) in *.
  rewrite lor0 by lia.
  assert (H0 : (hy =? 0) && (ly =? 0) = false). { destruct (Z.eqb_spec hy 0), (Z.eqb_spec ly 0); try reflexivity. lia. } rewrite H0.
  assert (H1 : (to_i 32 (Z.shiftr x 32) =? 0x3ff00000) && (l =? 0) = false).
  { destruct (Z.eqb_spec (to_i 32 (Z.shiftr x 32)) 0x3ff00000), (Z.eqb_spec l 0); try reflexivity. exfalso. rewrite Ex in *. destruct (signbit f64 x); unfold bs in EEx; lia. }
  rewrite H1.
  match goal with |- context[if ?b then Some (x +: y) else _] => assert (H3 : b = false) end.
  { repeat rewrite orb_false_iff. repeat split; try (apply Z.ltb_ge; lia); apply andb_false_iff; rewrite negb_false_iff, Z.eqb_eq, Z.eqb_neq; lia. }
  rewrite H3. assert (H2 : (to_i 32 (Z.shiftr x 32) <? 0) = signbit f64 x). { rewrite Ex. destruct (signbit f64 x); [apply Z.ltb_lt|apply Z.ltb_ge]; lia. }
  rewrite H2. destruct (signbit f64 x) eqn:S.
  - exists c. split; [|split; [discriminate|auto]]. match goal with |- bind (bind ?t _) _ = _ => change t with (yi64 hy ly) end. rewrite Ec. reflexivity.
  - exists 0. split; [reflexivity|]. split; [reflexivity|discriminate].
Qed.
Lemma pow_edge e (s t : bool) h l c y hy : e = 0 \/ e = 0x7ff0000000000000 -> 0 <= h < 0x7ff00000 -> 0 <= l -> ~ (h = 0x3ff00000 /\ l = 0) -> c = 0 \/ c = 1 \/ c = 2 -> (s = false -> c = 0) ->
  hy = (if t then h - 2 ^ 31 else h) -> 
  ~ (t = false /\ h = 0x40000000 /\ l = 0) -> ~ (s = false /\ t = false /\ h = 0x3fe00000 /\ l = 0) ->
  pow_tail (bs s * 2 ^ 63 + e) y (if s then e / 2 ^ 32 - 2 ^ 31 else e / 2 ^ 32) 0 hy l (e / 2 ^ 32) h c =
  Some (bs (c =? 1) * 2 ^ 63 + (if t then 0x7ff0000000000000 - e else e)).
Proof.
  intros He A L0 A1 C S0 EH T1 T2. 
  assert (R1 : rs_pow_1 (bs s * 2 ^ 63 + e) y (if s then e / 2 ^ 32 - 2 ^ 31 else e / 2 ^ 32) 0 hy (e / 2 ^ 32) h c = Some (bs (c =? 1) * 2 ^ 63 + (if t then 0x7ff0000000000000 - e else e))).
  { assert (H3 : (hy <? 0) = t) by (subst hy; destruct t; [apply Z.ltb_lt|apply Z.ltb_ge]; lia). unfold rs_pow_1. rewrite H3.
    clear T1 T2 H3 EH. destruct s, t, He as [-> | ->], C as [-> | [-> | ->]]; try (specialize (S0 eq_refl); discriminate); vm_compute; reflexivity. }
  unfold pow_tail. destruct (Z.eqb_spec l 0) as [L|L]; [|exact R1].
  rewrite !(neq_eqb h) by lia.
  assert (H1 : (hy =? 0x40000000) = false) by (apply Z.eqb_neq; subst hy; destruct t; [lia|]; intros ->; tauto). rewrite H1.
  destruct (Z.eqb_spec hy 0x3fe00000) as [E|E]; [|exact R1].
  assert (H2 : (0 <=? (if s then e / 2 ^ 32 - 2 ^ 31 else e / 2 ^ 32)) = false); [|rewrite H2; exact R1].
  destruct s; [destruct He as [-> | ->]; reflexivity|]. exfalso. subst hy. destruct t; [lia|]. tauto.
Qed.
Lemma pow_base e s y : e = 0 \/ e = 0x7ff0000000000000 -> isbits f64 y -> isnan f64 y = false -> iszero f64 y = false ->
  exists o : bool, (o = true <-> odd_integral f64 y) /\
  rs_pow (bs s * 2 ^ 63 + e) y = Some (bs (s && o) * 2 ^ 63 + (if signbit f64 y then 0x7ff0000000000000 - e else e)).
Proof.
  intros He By Ny Zy. destruct (yi64_ok y By Ny Zy) as (c0 & Ec0 & C1 & C2). destruct (icode_odd f64 y c0 C1 C2) as [C3 C4].
  exists (c0 =? 1). split; [rewrite Z.eqb_eq; exact C4|].
  destruct (bits64_intro s e) as (Bx & Sx & Ax); [destruct He as [-> | ->]; lia|].
  destruct (pow_head _ y Bx By) as (c & E & D1 & D2); try assumption.
  { rewrite nan64, Ax by assumption. apply Z.ltb_ge. lia. } { destruct s, He as [-> | ->]; discriminate. }
  rewrite E. clear E. rewrite Sx in D1, D2.
  destruct (hx64 _ Bx) as [-> _]. destruct (hx64 y By) as [HY _]. rewrite Ax, Sx.
  assert (LX : to_u 32 (bs s * 2 ^ 63 + e) = 0) by (destruct s, He as [-> | ->]; reflexivity). rewrite LX.
  pose proof Ny as Ny'. rewrite nan64, Z.ltb_ge in Ny' by assumption. rewrite zer64, Z.eqb_neq in Zy by assumption. destruct (bits64 y By) as [EY RY].
  pose proof (lw64 y By) as [Wy Vy]. change (get_low_word y) with (to_u 32 y) in *. pose proof (a64_hi y By) as Hy.
  assert (EC : c = if s then c0 else 0). { destruct s; [|auto]. destruct (D2 eq_refl) as [E _]. congruence. } subst c.
  assert (HT : (s && (c0 =? 1))%bool = ((if s then c0 else 0) =? 1)) by now destruct s. rewrite HT.
  set (h := a64 y / 2 ^ 32) in *. set (l := to_u 32 y) in *. set (t := signbit f64 y) in *.
  assert (YE : y = bs t * 2 ^ 63 + (h * 2 ^ 32 + l)) by lia.
  assert (GY : forall h0, h = h0 -> l = 0 -> y = bs t * 2 ^ 63 + h0 * 2 ^ 32) by (intros h0 K1 K2; rewrite YE, K1, K2; lia). clearbody t.
  assert (DC : forall P : Prop, (h = 0x7ff00000 -> l = 0 -> P) -> (h = 0x3ff00000 -> l = 0 -> P) -> (t = false -> h = 0x40000000 -> l = 0 -> P) ->
    (s = false -> t = false -> h = 0x3fe00000 -> l = 0 -> P) ->
    (0 <= h < 0x7ff00000 -> ~ (h = 0x3ff00000 /\ l = 0) -> ~ (t = false /\ h = 0x40000000 /\ l = 0) -> ~ (s = false /\ t = false /\ h = 0x3fe00000 /\ l = 0) -> P) -> P).
  { intros P P1 P2 P3 P4 P5. destruct (Z.eq_dec l 0) as [L|L]; [|apply P5; lia].
    destruct (Z.eq_dec h 0x7ff00000); [auto|]. destruct (Z.eq_dec h 0x3ff00000); [auto|].
    destruct (Z.eq_dec h 0x40000000); [destruct t; [|auto]; apply P5; lia || (intros [? ?]; discriminate) || (intros [? [? ?]]; discriminate) |].
    destruct (Z.eq_dec h 0x3fe00000); [destruct s, t; [| | |auto]; apply P5; lia || (intros [? ?]; discriminate) || (intros [? [? ?]]; discriminate) |].
    apply P5; lia. }
  apply DC; clear DC.
  - intros Eh El. rewrite (GY _ Eh El) at 1. rewrite Eh, El in *. vm_compute in Ec0. injection Ec0 as <-. rewrite HY. clear - He. destruct s, t, He as [-> | ->]; vm_compute; reflexivity.
  - intros Eh El. rewrite (GY _ Eh El) at 1. rewrite Eh, El in *. vm_compute in Ec0. injection Ec0 as <-. rewrite HY. clear - He. destruct s, t, He as [-> | ->]; vm_compute; reflexivity.
  - intros Et Eh El. rewrite (GY _ Eh El) at 1. rewrite Eh, El, Et in *. vm_compute in Ec0. injection Ec0 as <-. rewrite HY. clear - He. destruct s, He as [-> | ->]; vm_compute; reflexivity.
  - intros Es Et Eh El. rewrite (GY _ Eh El) at 1. rewrite Eh, El, Et in *. rewrite HY. subst s. clear - He. destruct He as [-> | ->]; vm_compute; reflexivity.
  - intros. apply pow_edge; try assumption; try lia; destruct s; try tauto; discriminate.
Qed.
Lemma mag1_64 x : isbits f64 x -> finite f64 x = true -> ((Rabs (val f64 x) < 1)%R -> a64 x < 0x3ff0000000000000) /\ ((1 < Rabs (val f64 x))%R -> 0x3ff0000000000000 < a64 x).
Proof.
  intros B Fx. destruct (val_a64 x B) as (Ba & Ea & Fa & Va). rewrite <- Va, <- one64. destruct (bits64 x B) as [_ R]. destruct (pos64 (a64 x) R) as (_ & _ & Sa).
  split; intros H; [apply vlt64 in H; [|assumption]|apply vgt64 in H; [|assumption]]; rewrite Sa, Ea in H; exact H.
Qed.
Theorem C32_pow : pow_special f64 rs_pow.
Proof.
  assert (Z0 : forall s, zero f64 s = bs s * 2 ^ 63 + 0) by (intros []; reflexivity).
  assert (I0 : forall s, infinity f64 s = bs s * 2 ^ 63 + 0x7ff0000000000000) by (intros []; reflexivity).
  assert (TU : forall y, isbits f64 y -> to_u 32 (a64 y / 2 ^ 32) = a64 y / 2 ^ 32) by (intros y By; pose proof (a64_hi y By); apply Z.mod_small; lia).
  split.
  - intros x y Bx By Zy. destruct (hx64 y By) as [_ Ly]. rewrite zer64, Z.eqb_eq in Zy by assumption. pose proof (lw64 y By) as [Wy Vy]. pose proof (a64_hi y By).
    change (get_low_word y) with (to_u 32 y) in *. unfold rs_pow. cbv zeta. rewrite Ly, (TU y By). rewrite lor0 by lia.
    replace (a64 y / 2 ^ 32 =? 0) with true by (symmetry; apply Z.eqb_eq; lia). replace (to_u 32 y =? 0) with true by (symmetry; apply Z.eqb_eq; lia). reflexivity.
  - intros y By. unfold rs_pow. cbv zeta. change (to_i 32 (Z.shiftr (onef f64 false) 32) =? 0x3ff00000) with true. change (to_u 32 (onef f64 false) =? 0) with true. cbn [andb]. destruct (_ =? 0); reflexivity.
  - intros x y Bx By N Zy X1. destruct (hx64 x Bx) as [Ex Lx]. destruct (hx64 y By) as [Ey Ly]. destruct (bits64 x Bx) as [EEx Rx]. destruct (bits64 y By) as [EEy Ry].
    pose proof (lw64 x Bx) as [Wx Vx]. pose proof (lw64 y By) as [Wy Vy]. change (get_low_word x) with (to_u 32 x) in *. change (get_low_word y) with (to_u 32 y) in *.
    pose proof (a64_hi x Bx) as Hx. pose proof (a64_hi y By) as Hy. pose proof N as N'.
    rewrite zer64, Z.eqb_neq in Zy by assumption. rewrite !nan64, !Z.ltb_lt in N by assumption. unfold rs_pow. cbv zeta. rewrite Lx, Ly, (TU y By).
    set (h := a64 x / 2 ^ 32) in *. set (l := to_u 32 x) in *. set (hy := a64 y / 2 ^ 32) in *. set (ly := to_u 32 y) in *. rewrite lor0 by lia.
    assert (H0 : (hy =? 0) && (ly =? 0) = false). { destruct (Z.eqb_spec hy 0), (Z.eqb_spec ly 0); try reflexivity. lia. } rewrite H0.
    assert (H1 : (to_i 32 (Z.shiftr x 32) =? 0x3ff00000) && (l =? 0) = false).
    { change (onef f64 false) with 0x3ff0000000000000 in X1. destruct (Z.eqb_spec (to_i 32 (Z.shiftr x 32)) 0x3ff00000), (Z.eqb_spec l 0); try reflexivity. exfalso. rewrite Ex in *. destruct (signbit f64 x); unfold bs in EEx; lia. }
    rewrite H1.
    match goal with |- context[if ?b then Some (x +: y) else _] => assert (H3 : b = true) by btrue end. rewrite H3.
    eexists. split; [reflexivity|]. split; [apply fadd_isbits|]. apply fadd_nan. apply orb_true_iff. exact N'.
  - intros []; vm_compute; reflexivity.
  - intros x y Bx By Fx Vx Fy NI. pose proof (val_neg_sign f64 x Vx) as Sx. destruct (neg64 x Bx Fx Vx) as (_ & Ax).
    assert (Nx : isnan f64 x = false) by (rewrite nan64, Z.ltb_ge by assumption; lia).
    assert (Ay : a64 y < 0x7ff0000000000000) by (rewrite fin64, Z.ltb_lt in Fy by assumption; lia).
    assert (Ny : isnan f64 y = false) by (rewrite nan64, Z.ltb_ge by assumption; lia).
    assert (Zy : iszero f64 y = false). { destruct (iszero f64 y) eqn:Z; [|reflexivity]. exfalso. apply NI. split; [assumption|]. exists 0. now apply iszero_val. }
    destruct (pow_head x y Bx By Nx Ny Zy) as (c & E & _ & D). { intros ->. discriminate Sx. }
    destruct (D Sx) as (Ec & C1 & _). specialize (C1 Fy).
    assert (c = 0) as ->. { destruct C1 as [[-> _]|[[_ O]|[_ [I _]]]]; [reflexivity| |tauto]. apply odd_int in O. tauto. }
    rewrite E. clear E. destruct (hx64 x Bx) as [Hx _]. destruct (hx64 y By) as [Hy _]. rewrite Sx in Hx.
    pose proof (lw64 x Bx) as [Wx Vx']. pose proof (lw64 y By) as [Wy Vy]. change (get_low_word x) with (to_u 32 x) in *. change (get_low_word y) with (to_u 32 y) in *.
    pose proof (a64_hi x Bx) as RHx. pose proof (a64_hi y By) as RHy.
    assert (R1 : exists r, rs_pow_1 x y (to_i 32 (Z.shiftr x 32)) (to_u 32 x) (to_i 32 (Z.shiftr y 32)) (a64 x / 2 ^ 32) (a64 y / 2 ^ 32) 0 = Some r /\ isbits f64 r /\ isnan f64 r = true).
    { assert (H3 : (to_i 32 (Z.shiftr x 32) <? 0) = true) by (apply Z.ltb_lt; lia).
      assert (R2 : exists r, rs_pow_2 x y (to_i 32 (Z.shiftr x 32)) (to_i 32 (Z.shiftr y 32)) (a64 x / 2 ^ 32) (a64 y / 2 ^ 32) 0 (fabs f64 x) = Some r /\ isbits f64 r /\ isnan f64 r = true).
      { unfold rs_pow_2. cbv zeta. rewrite H3. change (0 =? 0) with true. cbv iota. eexists. split; [reflexivity|]. rewrite (fsub_self f64 x Fx).
        split; [vm_compute; split; [discriminate|reflexivity]|vm_compute; reflexivity]. }
      unfold rs_pow_1. cbv zeta. destruct (Z.eqb_spec (to_u 32 x) 0) as [L|L]; [|exact R2]. rewrite (neq_eqb _ 0x7ff00000), (neq_eqb _ 0) by lia. cbn [orb].
      destruct (Z.eqb_spec (a64 x / 2 ^ 32) 0x3ff00000) as [X1|X1]; [|exact R2]. clear R2.
      assert (X : x = 0xbff0000000000000). { destruct (bits64 x Bx) as [K _]. rewrite K, Sx, Wx, X1, L. reflexivity. } rewrite H3, X1, X.
      change (fabs f64 0xbff0000000000000) with 0x3ff0000000000000. change (0x3ff0000000000000 /: 0x3ff0000000000000) with 0x3ff0000000000000.
      destruct (to_i 32 (Z.shiftr y 32) <? 0); (eexists; split; [vm_compute; reflexivity|split; [vm_compute; split; [discriminate|reflexivity]|vm_compute; reflexivity]]). }
    unfold pow_tail. cbv zeta. destruct (Z.eqb_spec (to_u 32 y) 0) as [L|L]; [|exact R1]. rewrite L in Ec.
    assert (Y1 : a64 y / 2 ^ 32 <> 0x3ff00000) by (intros K; rewrite K in Ec; vm_compute in Ec; discriminate).
    assert (Y2 : to_i 32 (Z.shiftr y 32) <> 0x40000000). { rewrite Hy. destruct (signbit f64 y); [lia|]. intros K; rewrite K in Ec; vm_compute in Ec; discriminate. }
    rewrite (neq_eqb (a64 y / 2 ^ 32)) by lia. rewrite (neq_eqb (a64 y / 2 ^ 32)) by assumption. rewrite (neq_eqb (to_i 32 _) 0x40000000) by assumption.
    assert (H2 : (0 <=? to_i 32 (Z.shiftr x 32)) = false) by (apply Z.leb_gt; lia). rewrite H2. destruct (_ =? _); exact R1.
  - intros s y (By & Ny & Zy & Sy) O. rewrite Z0. destruct (pow_base 0 s y) as (o & OO & E); try assumption; [now left|]. rewrite E, Sy. apply OO in O. subst o. now destruct s.
  - intros s y (By & Ny & Zy & Sy) O. rewrite Z0. destruct (pow_base 0 s y) as (o & OO & E); try assumption; [now left|]. rewrite E, Sy. destruct o; [tauto|]. now destruct s.
  - intros s y (By & Ny & Zy & Sy) O. rewrite Z0. destruct (pow_base 0 s y) as (o & OO & E); try assumption; [now left|]. rewrite E, Sy. apply OO in O. subst o. now destruct s.
  - intros s y (By & Ny & Zy & Sy) O. rewrite Z0. destruct (pow_base 0 s y) as (o & OO & E); try assumption; [now left|]. rewrite E, Sy. destruct o; [tauto|]. now destruct s.
  - intros x s Bx Fx V. destruct (mag1_64 x Bx Fx) as [V1 _]. specialize (V1 V). destruct (bits64 x Bx) as [_ Rx].
    assert (Nx : isnan f64 x = false) by (rewrite nan64, Z.ltb_ge by assumption; lia).
    destruct (pow_head x (infinity f64 s) Bx) as (c & E & _); try assumption; try (now destruct s); [intros ->; revert V1; vm_compute; discriminate|].
    pose proof (lw64 x Bx) as [Wx Vx']. change (get_low_word x) with (to_u 32 x) in *. pose proof (a64_hi x Bx) as RHx.
    rewrite E. unfold pow_tail. replace (to_u 32 (infinity f64 s)) with 0 by now destruct s. replace (a64 (infinity f64 s) / 2 ^ 32) with 0x7ff00000 by now destruct s.
    change (0 =? 0) with true. change (0x7ff00000 =? 0x7ff00000) with true. cbv iota.
    rewrite ssub_ok by lia. cbn [bind].
    rewrite (neq_eqb (Z.lor _ _)) by (rewrite Z.lor_eq_0_iff; lia). replace (0x3ff00000 <=? a64 x / 2 ^ 32) with false by (symmetry; apply Z.leb_gt; lia). destruct s; reflexivity.
  - intros x s Bx Nx V.
    assert (V1 : 0x3ff0000000000000 < a64 x). { destruct (finite f64 x) eqn:Fx; [apply mag1_64; auto|]. rewrite fin64, Z.ltb_ge in Fx by assumption. lia. }
    destruct (pow_head x (infinity f64 s) Bx) as (c & E & _); try assumption; try (now destruct s); [intros ->; revert V1; vm_compute; discriminate|].
    pose proof (lw64 x Bx) as [Wx Vx']. change (get_low_word x) with (to_u 32 x) in *. pose proof (a64_hi x Bx) as RHx.
    rewrite E. unfold pow_tail. replace (to_u 32 (infinity f64 s)) with 0 by now destruct s. replace (a64 (infinity f64 s) / 2 ^ 32) with 0x7ff00000 by now destruct s.
    change (0 =? 0) with true. change (0x7ff00000 =? 0x7ff00000) with true. cbv iota.
    rewrite ssub_ok by lia. cbn [bind].
    rewrite (neq_eqb (Z.lor _ _)). 2: { rewrite Z.lor_eq_0_iff. intros [K1 K2]. assert (K3 : to_u 32 x = 0) by (apply (to_i_inj 32); lia || exact K2). lia. }
    replace (0x3ff00000 <=? a64 x / 2 ^ 32) with true by (symmetry; apply Z.leb_le; lia). destruct s; reflexivity.
  - intros s y (By & Ny & Zy & Sy) O. rewrite I0. destruct (pow_base 0x7ff0000000000000 s y) as (o & OO & E); try assumption; [now right|]. rewrite E, Sy. apply OO in O. subst o. now destruct s.
  - intros s y (By & Ny & Zy & Sy) O. rewrite I0. destruct (pow_base 0x7ff0000000000000 s y) as (o & OO & E); try assumption; [now right|]. rewrite E, Sy. destruct o; [tauto|]. now destruct s.
  - intros s y (By & Ny & Zy & Sy) O. rewrite I0. destruct (pow_base 0x7ff0000000000000 s y) as (o & OO & E); try assumption; [now right|]. rewrite E, Sy. apply OO in O. subst o. now destruct s.
  - intros s y (By & Ny & Zy & Sy) O. rewrite I0. destruct (pow_base 0x7ff0000000000000 s y) as (o & OO & E); try assumption; [now right|]. rewrite E, Sy. destruct o; [tauto|]. now destruct s.
Qed.
Print Assumptions C32_pow.

(** Concrete instances. *)
Example C32_ex_nan0 : rs_pow 0x7ff8000000000000 0x8000000000000000 = Some 0x3ff0000000000000.
Proof. vm_compute. reflexivity. Qed.
Example C32_ex_odd : rs_pow 0x8000000000000000 0xc008000000000000 = Some 0xfff0000000000000 /\ odd_integral f64 0xc008000000000000.
Proof. split; [vm_compute; reflexivity|]. split; [reflexivity|]. exists (-2). replace (IZR (2 * -2 + 1)) with (-3 / 1)%R by (simpl; lra). lit. Qed.
Example C32_ex_dom : rs_powf 0xc0000000 0x3f000000 = Some 0x7fc00000 /\ ~ integral f32 0x3f000000.
Proof.
  split; [vm_compute; reflexivity|]. intros [_ [n H]]. rewrite (val_lit f32 0x3f000000 1 2) in H by (vm_compute; reflexivity).
  assert (K : IZR (2 * n) = 1%R) by (rewrite mult_IZR; lra). apply eq_IZR in K. lia.
Qed.
