(** C44: the argument reduction of the single precision functions is accurate, and the table of 2/pi is right.

    The statements speak about the real number pi of the standard library. [b] is the pointer width, which selects the length of the table (rem_pio2_large.rs 31-115). *)
From Coq Require Import ZArith Reals Lia Lra Bool List.
From Flocq Require Import Core.
From Verif Require Import Base Spec Format Ieee M_rempio2 P_elem P_cf P_pitab P_medf P_rplf P_lit P_neg P_ival P_ival2.
Open Scope Z_scope.

(** The k-th entry of the table is the k-th digit of 2/pi in base 2^24. *)
Definition two_over_pi_digit (k : Z) : Z := Zfloor (2 / PI * bpow radix2 (24 * (k + 1))) mod 2 ^ 24.
Theorem C44_table b k : (k < 66)%nat -> nth k (IPIO2 b) (-1) = two_over_pi_digit (Z.of_nat k).
Proof.
  intros H. unfold two_over_pi_digit.
  rewrite (Zfloor_imp (pre (IPIO2 b) (S k))) by (pose proof (pre_ok b (S k) ltac:(lia)) as P; replace (Z.of_nat k + 1) with (Z.of_nat (S k)) by lia; rewrite plus_IZR; exact P).
  cbn [pre]. rewrite Z.add_comm, Z.mod_add by lia.
  assert (D : forall j, (j < 66)%nat -> nth j (IPIO2 b) (-1) = digit (IPIO2 b) (Z.of_nat j) /\ 0 <= digit (IPIO2 b) (Z.of_nat j) < 2 ^ 24).
  { intros j Hj. unfold digit. rewrite Nat2Z.id. rewrite (proj2 (Z.ltb_ge (Z.of_nat j) 0)) by lia. assert (C : forallb (fun j => (nth j (IPIO2 b) (-1) =? nth j (IPIO2 b) 0) && (0 <=? nth j (IPIO2 b) 0) && (nth j (IPIO2 b) 0 <? 2 ^ 24)) (seq 0 66) = true) by (destruct b; vm_compute; reflexivity).
    rewrite forallb_forall in C. specialize (C j ltac:(apply in_seq; lia)). lia. }
  destruct (D k H) as [E R]. rewrite Z.mod_small by exact R. exact E.
Qed.
Print Assumptions C44_table.
Example C44_table_example : nth 0 (IPIO2 true) (-1) = 0xA2F983 /\ length (IPIO2 false) = 66%nat.
Proof. vm_compute. split; reflexivity. Qed.

(** From 4 on, the reduction returns the quadrant and a double that is within 3/2 * 2^-26 (relative), and 2^-40, of the true remainder; the remainder is at most pi/4 up to rounding of the quotient. *)
Theorem C44_rem_pio2f b x : isbits f32 x -> finite f32 x = true -> (4 <= Rabs (val f32 x))%R ->
  exists n y k, rs_rem_pio2f_gen b x = Some (n, y) /\ k mod 8 = n mod 8 /\ isbits f64 y /\ finite f64 y = true /\
    let r := (val f32 x - IZR k * (PI / 2))%R in
    (Rabs r <= 0.785399 /\ Rabs (val f64 y - r) <= 3 / 2 * bpow radix2 (-26) * Rabs r /\ Rabs (val f64 y - r) <= bpow radix2 (-40))%R.
Proof.
  intros B F H. pose proof F as F2. rewrite (fin32 x B) in F2.
  assert (L : 0x40800000 <= a32 x).
  { destruct (Z_lt_le_dec (a32 x) 0x40800000) as [Q | Q]; [exfalso|exact Q].
    assert (A0 : 0 <= a32 x) by (unfold a32; apply Z.mod_pos_bound; lia). assert (E : val f32 0x407fffff = (16777215 / 4194304)%R) by lit. assert (Z0 : val f32 0 = 0%R) by apply zero_ok.
    destruct (signbit f32 x) eqn:S.
    - destruct (IN_neg32 0 0x407fffff x B S ltac:(lia) ltac:(lia) ltac:(lia)) as (_ & _ & I). cbn [fst snd] in I. rewrite !fneg_val, E, Z0 in I by (split; [lia|reflexivity]). rewrite Rabs_left1 in H by lra. lra.
    - destruct (IN_pos32 0 0x407fffff x B S ltac:(lia) ltac:(lia) ltac:(lia)) as (_ & _ & I). cbn [fst snd] in I. rewrite E, Z0 in I. rewrite Rabs_pos_eq in H by lra. lra. }
  destruct (Z_lt_le_dec (a32 x) 0x4dc90fdb) as [Q | Q].
  - destruct (rem_pio2f_medium b x B ltac:(lia)) as (n & y & E & (By & Fy & R1 & R2 & _ & R3) & _). exists n, y, n. auto 10.
  - destruct (rem_pio2f_large b x B ltac:(lia)) as (n & y & k & E & M & (By & Fy & R1 & R2 & _ & R3) & _). exists n, y, k. auto 10.
Qed.
Print Assumptions C44_rem_pio2f.
(** the largest finite float lies about 0.5490 below a multiple of 2 pi *)
Example C44_rem_pio2f_example : rs_rem_pio2f_gen true 0x7f7fffff = Some (4, 0xbfe191cfe681daf7) /\ rs_rem_pio2f_gen false 0x40a00000 = Some (3, 0x3fd268380ccde2dd).
Proof. vm_compute. split; reflexivity. Qed.
