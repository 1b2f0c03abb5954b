(** Final forms of the rounding theorems. *)
From Coq Require Import ZArith Reals Lia Lra Bool.
From Flocq Require Import Core.
From Verif Require Import Base Spec Format P_format Ieee P_ieee P_real SpecFun M_basic P_round P_round2 P_minmax.
Open Scope Z_scope.

Lemma rint_roundeven_ok F x : isbits F x ->
  exists r, rint F x = Some r /\ roundeven F x = Some r /\ rounded_by F ZnearestE x r.
Proof.
  intros Hx. destruct (rint_ok F x Hx) as (r & E & H). exists r. unfold rint, roundeven. rewrite E. auto.
Qed.

Lemma status_refuted :
  let status_exact (f : fmt -> Z -> option (Z * Z)) :=
    forall F x, isbits F x -> exists r st, f F x = Some (r, st) /\ (st = ST_INEXACT <-> r <> x) in
  ~ status_exact floor_status /\ ~ status_exact ceil_status /\ ~ status_exact trunc_status.
Proof.
  cbv zeta.
  assert (B : isbits f32 0x3F000000) by (split; vm_compute; congruence).
  repeat split; intros H; destruct (H f32 0x3F000000 B) as (r & st & E & I);
    vm_compute in E; injection E as <- <-; destruct I as [_ I];
    assert (K : ST_OK = ST_INEXACT) by (apply I; discriminate); discriminate K.
Qed.

Lemma power_below_iff F x : power_below_one F x = true <-> 0 < expf F x < bias F /\ sigf F x = 0.
Proof.
  unfold power_below_one. rewrite !andb_true_iff, negb_true_iff, Z.ltb_lt, Z.eqb_eq, Z.eqb_neq.
  pose proof (fields_range F x). lia.
Qed.

Lemma status_partial : forall f, f = floor_status \/ f = ceil_status \/ f = trunc_status ->
  forall F x, isbits F x -> exists r st, f F x = Some (r, st) /\ (st = ST_OK \/ st = ST_INEXACT) /\
  (~ (0 < expf F x < bias F /\ sigf F x = 0) -> (st = ST_INEXACT <-> r <> x)) /\
  (0 < expf F x < bias F /\ sigf F x = 0 -> st = ST_OK /\ r <> x).
Proof.
  intros f Hf F x Hx.
  assert (K : exists r st, f F x = Some (r, st) /\ status_ok F x r st).
  { destruct Hf as [->|[->| ->]].
    - destruct (floor_status_ok F x Hx) as (r & st & E & _ & H); eauto.
    - destruct (ceil_status_ok F x Hx) as (r & st & E & _ & H); eauto.
    - destruct (trunc_status_ok F x Hx) as (r & st & E & _ & H); eauto. }
  destruct K as (r & st & E & S1 & S2 & S3). exists r, st.
  rewrite <- power_below_iff. split; [exact E|]. split; [exact S1|].
  split; intros H; [apply S2|apply S3; exact H]. destruct (power_below_one F x); [destruct H|]; reflexivity.
Qed.

Lemma i586_refuted :
  ~ (forall x, isbits f64 x -> Some (i586_floor x) = floor f64 x) /\
  ~ (forall x, isbits f64 x -> Some (i586_ceil x) = ceil f64 x).
Proof.
  split; intros H.
  - assert (B : isbits f64 0x8000000000000000) by (split; vm_compute; congruence).
    specialize (H _ B). vm_compute in H. discriminate.
  - assert (B : isbits f64 0xBFE0000000000000) by (split; vm_compute; congruence).
    specialize (H _ B). vm_compute in H. discriminate.
Qed.

Lemma i586_partial : forall x, isbits f64 x ->
  (x <> zero f64 true -> Some (i586_floor x) = floor f64 x) /\
  (~ (signbit f64 x = true /\ finite f64 x = true /\ (-1 < val f64 x)%R) -> Some (i586_ceil x) = ceil f64 x).
Proof.
  intros x Hx. split.
  - intros Hne. destruct (floor_ok f64 x Hx) as (g & -> & G). f_equal.
    apply (i586_agree Zfloor x _ _ Hx (i586_floor_ok x Hx) G).
    intros Hf E. destruct (signbit f64 x) eqn:S; [|reflexivity]. exfalso. apply Hne.
    rewrite <- S. apply iszero_eq; [assumption|]. apply val_eq_0; [assumption..|].
    pose proof (val_sign_nonpos f64 x S). pose proof (Zfloor_lb (val f64 x)). rewrite E in *. simpl in *. lra.
  - intros Hne. destruct (ceil_ok f64 x Hx) as (g & -> & G). f_equal.
    apply (i586_agree Zceil x _ _ Hx (i586_ceil_ok x Hx) G).
    intros Hf E. destruct (signbit f64 x) eqn:S; [|reflexivity]. exfalso. apply Hne.
    split; [reflexivity|]. split; [assumption|].
    pose proof (Zceil_lb (val f64 x)). rewrite E in *. simpl in *. lra.
Qed.

Lemma fmaximum_num_refuted :
  ~ (forall F x y, isbits F x -> isbits F y -> minmax_ord F false x y (fmaximum_num F x y)).
Proof.
  intros H. assert (B1 : isbits f32 0x80000000) by (split; vm_compute; congruence).
  assert (B2 : isbits f32 0x7FC00000) by (split; vm_compute; congruence).
  destruct (H f32 0x80000000 0x7FC00000 B1 B2) as (_ & _ & _ & K & _).
  specialize (K eq_refl eq_refl). vm_compute in K. discriminate.
Qed.
