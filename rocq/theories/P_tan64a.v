(** The double-precision kernel [k_tan]: the polynomial checked against sine and cosine. *)
From Coq Require Import ZArith Reals Lia Lra Bool List Psatz.
From Flocq Require Import Core.
From Verif Require Import Base Spec SpecAcc Format P_format Ieee P_ieee P_real P_neg P_lit P_err P_apx P_poly P_poly2 P_poly3 P_taylor P_acc P_kerf P_kerf2 P_red64 P_ksc P_ker64 M_basic M_elib M_trig.
Import ListNotations.
Open Scope R_scope.
Open Scope fl_scope.

(** ** The polynomial *)
Definition k_tan_poly : poly := (1, 1)%Z :: map (litq f64) rs_k_tan_T.
Definition tan64P (z : R) : R := peval k_tan_poly z * peval (tcos 9) z + - peval (tsin 9) z.
Definition tan64L : list iv := ladd (lmul (map iq k_tan_poly) (map iq (tcos 9))) (lneg (map iq (tsin 9))).
Lemma tan64P_PB : Pol tan64L tan64P.
Proof. apply (PB_add _ _ (fun z => peval k_tan_poly z * peval (tcos 9) z)); [apply PB_mul; apply PB_poly; vm_compute; reflexivity|apply PB_neg, PB_poly; vm_compute; reflexivity]. Qed.
Definition tan64Q (z : R) : R := peval k_tan_poly z * peval (tsin 9) z + - peval (tcos 9) z.
Definition tan64K : list iv := ladd (lmul (map iq k_tan_poly) (map iq (tsin 9))) (lneg (map iq (tcos 9))).
Lemma tan64Q_PB : Pol tan64K tan64Q.
Proof. apply (PB_add _ _ (fun z => peval k_tan_poly z * peval (tsin 9) z)); [apply PB_mul; apply PB_poly; vm_compute; reflexivity|apply PB_neg, PB_poly; vm_compute; reflexivity]. Qed.
Lemma tan64_chkL : pieces3 tan64L (2 ^ 190) (2 ^ 190) 233 (- uu 20000) (uu 20000) = true. Proof. vm_compute. reflexivity. Qed.
Lemma tan64_chkK3 : pieces3 tan64K (2 ^ 193) (2 ^ 193) 30 (- cc 1000) (cc 335000) = true. Proof. vm_compute. reflexivity. Qed.
Lemma tan64_chkK2 : pieces3 tan64K (2 ^ 193) (2 ^ 193) 24 (- cc 1000) (cc 270000) = true. Proof. vm_compute. reflexivity. Qed.
Lemma tan64_chkK1 : pieces3 tan64K (2 ^ 193) (2 ^ 193) 15 (- cc 1000) (cc 160000) = true. Proof. vm_compute. reflexivity. Qed.
Definition tan64l : poly := psub k_tan_poly [(1, 1); (333, 1000)]%Z.
Lemma tan64_chkP : pieces3 (map iq tan64l) (2 ^ 193) (2 ^ 193) 30 (- cc 100) (cc 60000) = true. Proof. vm_compute. reflexivity. Qed.
Lemma hpiece k n z : (0 <= k <= 199)%Z -> (0 < n)%nat -> 0 <= z <= IZR (2 * Z.of_nat n) * bpow radix2 (k - 200) -> fxr (2 ^ k - 2 ^ k) <= z <= fxr (2 ^ k + (2 * Z.of_nat n - 1) * 2 ^ k).
Proof.
  intros Hk Hn [H1 H2]. replace (2 ^ k - 2 ^ k)%Z with 0%Z by lia. rewrite fxr_0. split; [exact H1|]. eapply Rle_trans; [exact H2|]. replace (2 ^ k + (2 * Z.of_nat n - 1) * 2 ^ k)%Z with ((2 * Z.of_nat n) * 2 ^ k)%Z by ring.
  pose proof (fxr_pow (200 - k) ltac:(lia)) as F. replace (200 - (200 - k))%Z with k in F by lia. replace (- (200 - k))%Z with (k - 200)%Z in F by lia.
  unfold fxr in *. rewrite (mult_IZR _ (2 ^ k)). unfold Rdiv in *. rewrite Rmult_assoc, F. apply Rle_refl.
Qed.
