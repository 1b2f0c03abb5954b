(** Property C36: every method of [Libm<T>] returns what the free function of the same mathematical name and type returns. *)
From Coq Require Import ZArith String List Bool Lia.
From Verif Require Import M_helper.
Import ListNotations.
Open Scope string_scope.

(** ** Specification
    C's naming of the variant of a function for a type: the suffix follows the name; the reentrant lgamma has it before "_r". *)
Definition suffix (T : string) : string :=
  if String.eqb T "f32" then "f" else if String.eqb T "f16" then "f16" else if String.eqb T "f128" then "f128" else "".
Definition canonical (T m : string) : string :=
  if String.eqb m "lgamma_r" then "lgamma" ++ suffix T ++ "_r" else m ++ suffix T.
Fixpoint sig_of (n : string) (l : list (string * (list string * list string))) : option (list string * list string) :=
  match l with [] => None | (m, s) :: l => if String.eqb m n then Some s else sig_of n l end.
(** A method is right when calling it is calling the free function of that mathematical name for the type [T], for every
    meaning of the free functions and every argument list; when that free function exists with the declared types; and when no
    other floating-point type occurs. *)
Definition right_method (T : string) (tab : list row) (r : row) : Prop :=
  (forall (E : env) vs, List.length vs = List.length (params r) -> call tab (meth r) E vs = E (canonical T (meth r)) vs) /\
  sig_of (canonical T (meth r)) api = Some (map snd (params r), rets r) /\
  Forall (fun t => t = T \/ t = "i32") (map snd (params r) ++ rets r).

(** ** Proof *)
Lemma eval_args_id names vs : NoDup names -> List.length vs = List.length names -> eval_args names vs names = Some vs.
Proof.
  assert (S : forall pn pv names vs, NoDup (pn ++ names)%list -> List.length pv = List.length pn -> List.length vs = List.length names ->
    eval_args (pn ++ names) (pv ++ vs) names = Some vs).
  { clear. intros pn pv names. revert pn pv. induction names as [|n names IH]; intros pn pv [|v vs] ND Lp Lv; try discriminate; [reflexivity|].
    cbn [eval_args]. assert (El : lookup (pn ++ n :: names) (pv ++ v :: vs) n = Some v).
    { clear IH Lv. revert pv Lp ND. induction pn as [|p pn IH]; intros [|w pv] Lp ND; try discriminate; cbn.
      - now rewrite String.eqb_refl.
      - inversion ND as [|? ? Hn Hd]. destruct (String.eqb_spec p n) as [->|_].
        + exfalso. apply Hn. apply in_or_app. right. now left.
        + apply IH; [now inversion Lp|exact Hd]. }
    rewrite El. specialize (IH (pn ++ [n])%list (pv ++ [v])%list vs).
    rewrite <- !app_assoc in IH. cbn [app] in IH. rewrite IH; [reflexivity|exact ND|rewrite !app_length; cbn; lia|now inversion Lv]. }
  intros ND L. exact (S [] [] names vs ND eq_refl L).
Qed.
Fixpoint nodupb (l : list string) : bool := match l with [] => true | a :: l => negb (existsb (String.eqb a) l) && nodupb l end.
Lemma nodupb_ok l : nodupb l = true -> NoDup l.
Proof.
  induction l as [|a l IH]; cbn; intros H; constructor; apply andb_prop in H as [H1 H2].
  - intros Hi. apply negb_true_iff in H1. assert (existsb (String.eqb a) l = true) by (apply existsb_exists; exists a; split; [exact Hi|apply String.eqb_refl]). congruence.
  - now apply IH.
Qed.
Definition strs_eqb := fix go (a b : list string) : bool := match a, b with [], [] => true | x :: a, y :: b => String.eqb x y && go a b | _, _ => false end.
Lemma strs_eqb_ok a b : strs_eqb a b = true -> a = b.
Proof. revert b. induction a as [|x a IH]; intros [|y b]; cbn; try discriminate; [reflexivity|]. intros H. apply andb_prop in H as [H1 H2]. apply String.eqb_eq in H1. f_equal; auto. Qed.
Definition row_check (T : string) (tab : list row) (r : row) : bool :=
  match find (fun q => String.eqb (meth q) (meth r)) tab with
  | Some q => String.eqb (target q) (canonical T (meth r)) && Nat.eqb (List.length (params q)) (List.length (params r)) && nodupb (map fst (params q)) &&
      match sig_of (canonical T (meth r)) api with Some (a, b) => strs_eqb a (map snd (params r)) && strs_eqb b (rets r) | None => false end &&
      forallb (fun t => String.eqb t T || String.eqb t "i32") (map snd (params r) ++ rets r)
  | None => false
  end.
Lemma row_check_ok T tab r : row_check T tab r = true -> right_method T tab r.
Proof.
  unfold row_check, right_method, call. destruct (find _ tab) as [q|]; [|discriminate]. intros H.
  apply andb_prop in H as [H H5]. apply andb_prop in H as [H H4]. apply andb_prop in H as [H H3]. apply andb_prop in H as [H1 H2].
  apply String.eqb_eq in H1. apply Nat.eqb_eq in H2. apply nodupb_ok in H3. split; [|split].
  - intros E vs L. unfold expand. rewrite map_length, H2, L, Nat.eqb_refl. rewrite eval_args_id; [now rewrite H1|exact H3|rewrite map_length; congruence].
  - destruct (sig_of _ api) as [[a b]|]; [|discriminate]. apply andb_prop in H4 as [A B]. apply strs_eqb_ok in A, B. now subst.
  - apply Forall_forall. intros t Ht. rewrite forallb_forall in H5. specialize (H5 t Ht). apply orb_prop in H5 as [A|A]; apply String.eqb_eq in A; auto.
Qed.
Lemma table_ok T tab (bad : list string) :
  forallb (fun r => existsb (String.eqb (meth r)) bad || row_check T tab r) tab = true ->
  forall r, In r tab -> ~ In (meth r) bad -> right_method T tab r.
Proof.
  intros H r Hr Hb. rewrite forallb_forall in H. specialize (H r Hr). apply orb_prop in H as [H|H].
  - exfalso. apply Hb. apply existsb_exists in H as (m & Hm & E). apply String.eqb_eq in E. now rewrite E.
  - now apply row_check_ok.
Qed.

(** ** Theorems *)
Theorem C36_f32 r : In r helper_f32 -> right_method "f32" helper_f32 r.
Proof. intros H. apply (table_ok "f32" helper_f32 []); [vm_compute; reflexivity|exact H|intros []]. Qed.
Theorem C36_f128 r : In r helper_f128 -> right_method "f128" helper_f128 r.
Proof. intros H. apply (table_ok "f128" helper_f128 []); [vm_compute; reflexivity|exact H|intros []]. Qed.

(** The full statement for f64 is [forall r, In r helper_f64 -> right_method "f64" helper_f64 r]; it fails for five methods. *)
Definition bad_f64 := ["roundevem"; "fmaximum_numf"; "fmaximumf"; "fminimum_numf"; "fminimumf"].
Theorem C36_f64_partial r : In r helper_f64 -> ~ In (meth r) bad_f64 -> right_method "f64" helper_f64 r.
Proof. apply table_ok. vm_compute. reflexivity. Qed.
(** The method [roundevem] (line 171) names no function; [roundeven] is a free function without a method. *)
Theorem C36_f64_roundeven_refuted :
  (exists r, In r helper_f64 /\ meth r = "roundevem" /\ ~ right_method "f64" helper_f64 r) /\
  sig_of "roundeven" api = Some (["f64"], ["f64"]) /\ (forall r, In r helper_f64 -> meth r <> "roundeven").
Proof.
  split; [|split; [vm_compute; reflexivity|]].
  - exists (Row "roundevem" [("x", "f64")] ["f64"] "roundeven"). split; [apply (nth_error_In _ 53); reflexivity|split; [reflexivity|]].
    intros (_ & H & _). vm_compute in H. discriminate.
  - assert (H : forallb (fun r => negb (String.eqb (meth r) "roundeven")) helper_f64 = true) by (vm_compute; reflexivity).
    rewrite forallb_forall in H. intros r Hr E. specialize (H r Hr). rewrite E in H. discriminate.
Qed.
(** Four methods of [Libm<f64>] are the f32 functions, and [Libm<f32>] lacks them under any name. *)
Theorem C36_f64_f32_methods_refuted m : In m ["fmaximum"; "fmaximum_num"; "fminimum"; "fminimum_num"] ->
  (exists r, In r helper_f64 /\ meth r = (m ++ "f")%string /\ target r = canonical "f32" m /\ params r = [("x", "f32"); ("y", "f32")] /\ ~ right_method "f64" helper_f64 r) /\
  (forall r, In r helper_f32 -> target r <> canonical "f32" m).
Proof.
  intros Hm. split.
  - exists (Row (m ++ "f") [("x", "f32"); ("y", "f32")] ["f32"] (m ++ "f")).
    destruct Hm as [<- | [<- | [<- | [<- | []]]]]; (split; [first [apply (nth_error_In _ 26); reflexivity|apply (nth_error_In _ 25); reflexivity|apply (nth_error_In _ 31); reflexivity|apply (nth_error_In _ 30); reflexivity]|split; [reflexivity|split; [reflexivity|split; [reflexivity|]]]]);
      intros (_ & _ & H); apply Forall_inv in H; destruct H as [H | H]; discriminate.
  - destruct Hm as [<- | [<- | [<- | [<- | []]]]]; intros r Hr E;
    match type of E with _ = ?c => assert (H : forallb (fun r => negb (String.eqb (target r) c)) helper_f32 = true) by (vm_compute; reflexivity) end;
    rewrite forallb_forall in H; specialize (H r Hr); rewrite E in H; discriminate.
Qed.
Definition bad_f16 := ["fmaximumf16"; "sqrtf"; "truncf"].
Theorem C36_f16_partial r : In r helper_f16 -> ~ In (meth r) bad_f16 -> right_method "f16" helper_f16 r.
Proof. apply table_ok. vm_compute. reflexivity. Qed.
(** [Libm<f16>] offers sqrt, trunc and fmaximum only under names that are not those of the function. *)
Theorem C36_f16_names_refuted m t : In (m, t) [("fmaximumf16", "fmaximum"); ("sqrtf", "sqrt"); ("truncf", "trunc")] ->
  (exists r, In r helper_f16 /\ meth r = m /\ target r = canonical "f16" t /\ ~ right_method "f16" helper_f16 r) /\ (forall r, In r helper_f16 -> meth r <> t).
Proof.
  intros Hm. split.
  - destruct Hm as [[= <- <-] | [[= <- <-] | [[= <- <-] | []]]];
      [exists (Row "fmaximumf16" [("x", "f16"); ("y", "f16")] ["f16"] "fmaximumf16")|exists (Row "sqrtf" [("x", "f16")] ["f16"] "sqrtf16")|exists (Row "truncf" [("x", "f16")] ["f16"] "truncf16")];
      (split; [first [apply (nth_error_In _ 7); reflexivity|apply (nth_error_In _ 17); reflexivity|apply (nth_error_In _ 18); reflexivity]|split; [reflexivity|split; [reflexivity|]]]); intros (_ & H & _); vm_compute in H; discriminate.
  - destruct Hm as [[= <- <-] | [[= <- <-] | [[= <- <-] | []]]]; intros r Hr E;
    match type of E with _ = ?c => assert (H : forallb (fun r => negb (String.eqb (meth r) c)) helper_f16 = true) by (vm_compute; reflexivity) end;
    rewrite forallb_forall in H; specialize (H r Hr); rewrite E in H; discriminate.
Qed.

Print Assumptions C36_f32.
Print Assumptions C36_f128.
Print Assumptions C36_f64_partial.
Print Assumptions C36_f64_roundeven_refuted.
Print Assumptions C36_f64_f32_methods_refuted.
Print Assumptions C36_f16_partial.
Print Assumptions C36_f16_names_refuted.

(** With an environment in which the name of the function is recorded: the arguments of atan2 are not swapped. *)
Example C36_ex : call helper_f32 "atan2" (fun n vs => if String.eqb n "atan2f" then Some vs else None) [1; 2]%Z = Some [1; 2]%Z.
Proof. reflexivity. Qed.
Example C36_ex_lgamma : canonical "f32" "lgamma_r" = "lgammaf_r".
Proof. reflexivity. Qed.
Example C36_ex_rows : (List.length helper_f32, List.length helper_f64, List.length helper_f16, List.length helper_f128) = (58, 66, 19, 20).
Proof. reflexivity. Qed.
