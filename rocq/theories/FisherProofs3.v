(** The time stepping. *)
From Coq Require Import Reals Lra Lia List Arith Bool.
Import ListNotations.
From Verif Require Import Base Scalars GeoModel FeModel AssembleModel AssembleSpec ElemSpec ElemProofs3 GalerkinProofs GalerkinProofs7 LinAlg StokesProofs3 FlowSpec StokesProofs8 StokesProofs17 FisherModel FisherSpec FisherProofs FisherProofs2.
Local Open Scope R_scope.

(** * Vectors *)
Definition at_ (v : list R) (i : nat) : R := nth i v 0.
Lemma vtimes_length : forall a v, length (vtimes a v) = length v. Proof. intros. apply map_length. Qed.
Lemma vplus_length : forall u v, length u = length v -> length (vplus u v) = length u.
Proof. intros u v H. unfold vplus. rewrite map_length, combine_length, H. apply Nat.min_id. Qed.
Lemma vtimes_at : forall a v i, at_ (vtimes a v) i = a * at_ v i.
Proof. intros a v i. unfold at_, vtimes. rewrite <- (Rmult_0_r a) at 1. apply map_nth. Qed.
Lemma vplus_at : forall u v i, length u = length v -> at_ (vplus u v) i = at_ u i + at_ v i.
Proof.
  induction u as [|a u IH]; intros [|b v] [|i] H; try discriminate; unfold at_, vplus in *; cbn [combine map nth fst snd] in *; try ring; try reflexivity.
  apply IH. cbn in H. lia.
Qed.
Lemma times_length : forall n D A x, square n D A -> length (times D x) = n.
Proof. intros n D A x (E & _ & _). unfold times. rewrite map_length, seq_length. exact E. Qed.
Lemma times_at : forall n D A x i, square n D A -> (i < n)%nat -> at_ (times D x) i = act n A (at_ x) i.
Proof.
  intros n D A x i (RR & CC & EE) Hi. unfold at_, times. rewrite RR, CC.
  set (g := fun i => rsum (map (fun j => d_coef Rring D i j * nth j x 0) (seq 0 n))).
  rewrite (nth_indep _ 0 (g 0%nat)) by (rewrite map_length, seq_length; exact Hi). rewrite (map_nth g), seq_nth by exact Hi. cbn [Nat.add]. unfold g.
  change (rsum (map (fun j => d_coef Rring D i j * nth j x 0) (seq 0 n))) with (sum_to n (fun j => d_coef Rring D i j * nth j x 0)).
  unfold act. apply sum_to_ext. intros j Hj. rewrite EE by assumption. reflexivity.
Qed.
Lemma at_out : forall v i, (length v <= i)%nat -> at_ v i = 0. Proof. intros. apply nth_overflow. assumption. Qed.
Lemma list_eq : forall n u v, length u = n -> length v = n -> (forall i, (i < n)%nat -> at_ u i = at_ v i) -> u = v.
Proof. intros n u v U V H. apply (nth_ext u v 0 0); [congruence|]. intros i Hi. apply H. lia. Qed.
Lemma square_combination : forall n D B A M c, square n D A -> square n B M -> square n (mplus B (mtimes c D)) (fun i j => M i j + c * A i j).
Proof.
  intros n D B A M c (R1 & C1 & E1) (R2 & C2 & E2). unfold square, mplus, mtimes. cbn [d_rows d_cols d_coef].
  split; [exact R2|]. split; [exact C2|]. intros i j Hi Hj. rewrite E1, E2 by assumption. reflexivity.
Qed.
Lemma act_combination : forall n M A c u i, act n (fun i j => M i j + c * A i j) u i = act n M u i + c * act n A u i.
Proof.
  intros. transitivity (act n (fun i j => 1 * M i j + c * A i j) u i); [unfold act; apply sum_to_ext; intros; ring|]. rewrite act_mat. ring.
Qed.
Lemma kappa_model : 1 - / 2 * sqrt 2 = kappa. Proof. unfold kappa. field. Qed.

(** * Numbers *)
Lemma numbers_fin : forall l, numbers (map Fin l) = Some l.
Proof. induction l as [|a l IH]; [reflexivity|]. cbn [map numbers]. rewrite IH. reflexivity. Qed.

Section Stepping.
Variables (n : nat) (DM DA : dense Rring) (M A : nat -> nat -> R).
Hypothesis SM : square n DM M.
Hypothesis SA : square n DA A.
Definition solves_for (s : list R -> list R) (c : R) : Prop := forall b, length b = n -> length (s b) = n /\
  forall i, (i < n)%nat -> act n (fun i j => M i j + c * A i j) (fun j => nth j (s b) 0) i = nth i b 0.
(** One step, with either solver. *)
Lemma one_step : forall s h mu, solves_for s (h * kappa) -> length mu = n ->
  let rhs := vtimes (-1) (times DA mu) in let k1 := s rhs in
  let k2 := s (vplus rhs (vtimes (- (h * (1 - kappa))) (times DA k1))) in
  let v := vplus (vplus mu (vtimes (h * (1 - kappa)) k1)) (vtimes (h * kappa) k2) in
  length v = n /\ sdirk_step n M A h (at_ mu) (at_ v).
Proof.
  intros s h mu SS L rhs k1 k2 v.
  assert (LR : length rhs = n) by (unfold rhs; rewrite vtimes_length; apply (times_length n DA A); exact SA).
  destruct (SS rhs LR) as [L1 E1]. fold k1 in L1, E1.
  assert (LT : length (times DA k1) = n) by (apply (times_length n DA A); exact SA).
  assert (LB : length (vplus rhs (vtimes (- (h * (1 - kappa))) (times DA k1))) = n) by (rewrite vplus_length; [exact LR|rewrite vtimes_length; congruence]).
  destruct (SS _ LB) as [L2 E2]. fold k2 in L2, E2.
  assert (LM : length (vplus mu (vtimes (h * (1 - kappa)) k1)) = n) by (rewrite vplus_length; [exact L|rewrite vtimes_length; congruence]).
  split; [unfold v; rewrite vplus_length; [exact LM|rewrite vtimes_length; congruence]|].
  exists (at_ k1), (at_ k2). split; [|split]; intros i Hi.
  - specialize (E1 i Hi). rewrite act_combination in E1. change (nth i rhs 0) with (at_ rhs i) in E1. unfold rhs in E1.
    rewrite vtimes_at, (times_at n DA A) in E1 by assumption. change (fun j => nth j k1 0) with (at_ k1) in E1.
    rewrite act_plus, act_scal, act_scal. lra.
  - specialize (E2 i Hi). rewrite act_combination in E2. change (fun j => nth j k2 0) with (at_ k2) in E2.
    change (nth i (vplus rhs (vtimes (- (h * (1 - kappa))) (times DA k1))) 0) with (at_ (vplus rhs (vtimes (- (h * (1 - kappa))) (times DA k1))) i) in E2.
    rewrite vplus_at in E2 by (rewrite vtimes_length; congruence). unfold rhs in E2.
    rewrite !vtimes_at, !(times_at n DA A) in E2 by assumption. rewrite act_plus, act_scal, act_lin. lra.
  - unfold v. rewrite !vplus_at, !vtimes_at by (rewrite ?vtimes_length; congruence). ring.
Qed.

Variables (T lambda : R) (m : nat) (lu : dense Rring -> option (list R -> list R)).
Hypothesis PM : positive_form n M.
Hypothesis PA : nonnegative_form n A.
Hypothesis HT : 0 <= T.
Hypothesis Hm : (0 < m)%nat.
Hypothesis LU : exact_lu lu.
Let tau := T / INR m.
Lemma tau_nonneg : 0 <= T / INR m.
Proof. apply Rmult_le_pos; [exact HT|]. left. apply Rinv_0_lt_compat. apply lt_0_INR. exact Hm. Qed.
Lemma lu_ok : forall c, 0 <= c -> exists s, lu (mplus DM (mtimes c DA)) = Some s /\ solves_for s c.
Proof.
  intros c Hc. destruct (LU n _ _ (square_combination n DA DM A M c SA SM)) as (s & E & S1).
  - intros u H. apply (injective n M A PM PA c u Hc). intros i Hi. rewrite <- act_combination. apply H. exact Hi.
  - exists s. split; [exact E|exact S1].
Qed.
(** What the constructor gives. *)
Definition built (self : strang) : Prop := N_dofs self = n /\ m_ self = m /\ tau_ self = tau /\ lambda_ self = lambda /\ kappa_ self = kappa /\ A_ self = DA /\
  solves_for (solver1 self) (tau / 2 * kappa) /\ solves_for (solver2 self) (tau * kappa).
Lemma construct : exists self, StrangSplit lu n T m lambda DA DM = Ok self /\ built self.
Proof.
  pose proof tau_nonneg as TN. pose proof kappa_bounds as KB. unfold StrangSplit. cbv zeta. rewrite kappa_model.
  destruct (Nat.eqb_spec m 0) as [Z|_]; [lia|]. cbn [negb lf_assert bind]. fold tau.
  destruct (lu_ok (/ 2 * tau * kappa)) as (s1 & E1 & S1); [fold tau in TN; nra|]. destruct (lu_ok (tau * kappa)) as (s2 & E2 & S2); [fold tau in TN; nra|].
  rewrite E1, E2. eexists. split; [reflexivity|]. unfold built. cbn [N_dofs m_ tau_ lambda_ kappa_ A_ solver1 solver2].
  repeat (split; [reflexivity|]). split; [|exact S2]. replace (tau / 2 * kappa) with (/ 2 * tau * kappa) by field. exact S1.
Qed.
Definition length_of (firstcall : bool) : R := if firstcall then tau / 2 else tau.
Lemma diffusion_ok : forall self b mu, built self -> length mu = n ->
  exists v, diffusionEvolutionOperator self b mu = Ok v /\ length v = n /\ sdirk_step n M A (length_of b) (at_ mu) (at_ v).
Proof.
  intros self b mu (_ & _ & ET & _ & EK & EA & S1 & S2) L. unfold diffusionEvolutionOperator. rewrite ET, EK, EA.
  assert (CC : d_cols Rring DA = n) by apply SA. rewrite CC, L, Nat.eqb_refl. cbn [lf_assert bind]. cbv zeta.
  destruct b; eexists; (split; [reflexivity|]).
  - replace (/ 2 * tau) with (tau / 2) by field. exact (one_step (solver1 self) (tau / 2) mu S1 L).
  - exact (one_step (solver2 self) tau mu S2 L).
Qed.
Lemma diffusion_fin : forall self b mu v, diffusionEvolutionOperator self b mu = Ok v -> diffusion self b (map Fin mu) = Ok (map Fin v).
Proof. intros self b mu v E. unfold diffusion. rewrite numbers_fin, E. reflexivity. Qed.

(** * Reaction *)
Lemma react_one : forall K t u, 0 < K -> 0 <= u -> 0 <= lambda * t ->
  xdiv K (xplus (xtimes (xplus (xdiv K (Fin u)) (-1)) (exp (- lambda * t))) 1) = Fin (logistic K lambda u t).
Proof.
  intros K t u HK Hu Ht. unfold xdiv at 2. destruct (Req_EM_T u 0) as [Z|Z].
  - subst u. destruct (Req_EM_T K 0) as [Q|_]; [lra|]. cbn [xplus xtimes xdiv]. f_equal. unfold logistic. unfold Rdiv. ring.
  - cbn [xplus xtimes xdiv]. pose proof (logistic_den K lambda u t HK Hu (or_introl Ht)) as D.
    assert (E : (K / u + -1) * exp (- lambda * t) + 1 = (u + (K - u) * exp (- lambda * t)) / u) by (field; exact Z). rewrite E.
    destruct (Req_EM_T ((u + (K - u) * exp (- lambda * t)) / u) 0) as [Q|Q].
    + exfalso. assert (0 < (u + (K - u) * exp (- lambda * t)) / u) by (apply Rmult_lt_0_compat; [exact D|apply Rinv_0_lt_compat; lra]). lra.
    + f_equal. unfold logistic. field. split; lra.
Qed.
Lemma react_list : forall t cap u, length cap = length u -> (forall i, (i < length u)%nat -> 0 < at_ cap i /\ 0 <= at_ u i) -> 0 <= lambda * t ->
  exists v, map (fun p => xdiv (fst p) (xplus (xtimes (xplus (xdiv (fst p) (snd p)) (-1)) (exp (- lambda * t))) 1)) (combine cap (map Fin u)) = map Fin v /\
    length v = length u /\ forall i, (i < length u)%nat -> at_ v i = logistic (at_ cap i) lambda (at_ u i) t.
Proof.
  intros t. induction cap as [|K cap IH]; intros [|x u] L H Ht; try discriminate.
  - exists []. split; [reflexivity|]. split; [reflexivity|]. intros i Hi. cbn in Hi. lia.
  - destruct (IH u) as (v & E & LV & V); [cbn in L; lia|intros i Hi; apply (H (S i)); cbn; lia|exact Ht|].
    destruct (H 0%nat) as [HK Hx]; [cbn; lia|]. cbn in HK, Hx.
    exists (logistic K lambda x t :: v). split; [|split; [cbn; lia|]].
    + cbn [map combine fst snd]. rewrite E, react_one by assumption. reflexivity.
    + intros [|i] Hi; [reflexivity|]. cbn in Hi. apply (V i). lia.
Qed.
Variable cap : list R.
Hypothesis LC : length cap = n.
Hypothesis PC : forall i, (i < n)%nat -> 0 < at_ cap i.
Hypothesis HL : 0 <= lambda.
Lemma reaction_ok : forall self t u, built self -> length u = n -> nonnegative n (at_ u) -> 0 <= t ->
  exists v, reaction self cap (exp (- lambda * t)) (map Fin u) = Ok (map Fin v) /\ length v = n /\ nonnegative n (at_ v) /\
    forall i, (i < n)%nat -> at_ v i = logistic (at_ cap i) lambda (at_ u i) t.
Proof.
  intros self t u (EN & _) L P Ht. unfold reaction. rewrite EN, map_length, LC, L, Nat.eqb_refl. cbn [lf_assert bind andb].
  assert (LT : 0 <= lambda * t) by (apply Rmult_le_pos; assumption).
  destruct (react_list t cap u) as (v & E & LV & V); [congruence|intros i Hi; split; [apply PC|apply P]; lia|exact LT|].
  exists v. rewrite E. split; [reflexivity|]. split; [congruence|]. rewrite L in V. split; [|exact V].
  intros i Hi. rewrite V by exact Hi. apply logistic_nonneg; [apply PC; exact Hi|apply P; exact Hi|left; exact LT].
Qed.
Lemma flows : forall t u v, nonnegative n u -> 0 <= t -> (forall i, (i < n)%nat -> v i = logistic (at_ cap i) lambda (u i) t) ->
  forall i, (i < n)%nat -> logistic_flow (at_ cap i) lambda t (u i) (v i).
Proof. intros t u v P Ht E i Hi. rewrite E by exact Hi. apply logistic_solves; [apply PC; exact Hi|apply P; exact Hi|exact Ht|left; exact HL]. Qed.

(** * All steps *)
Hypothesis KEEP : forall h u v, h = tau / 2 \/ h = tau -> nonnegative n u -> sdirk_step n M A h u v -> nonnegative n v.
Lemma steps_ok : forall self k u, built self -> length u = n -> nonnegative n (at_ u) ->
  exists v, time_steps self cap k (map Fin u) = Ok (map Fin v) /\ length v = n /\ nonnegative n (at_ v) /\
    forall l z, run n M A (at_ cap) lambda l (at_ v) z -> run n M A (at_ cap) lambda (concat (repeat [Reaction tau; Diffusion tau] k) ++ l) (at_ u) z.
Proof.
  intros self k. pose proof tau_nonneg as TN. fold tau in TN. induction k as [|k IH]; intros u B L P.
  - exists u. split; [reflexivity|]. split; [exact L|]. split; [exact P|]. intros l z H. exact H.
  - cbn [time_steps]. assert (EL : lambda_ self = lambda) by apply B. assert (ET : tau_ self = tau) by apply B. rewrite EL, ET.
    destruct (reaction_ok self tau u B L P TN) as (w & E & LW & PW & W). rewrite E. cbn [bind].
    destruct (diffusion_ok self false w B LW) as (x & E2 & LX & X). rewrite (diffusion_fin _ _ _ _ E2). cbn [bind].
    assert (PX : nonnegative n (at_ x)) by (apply (KEEP tau (at_ w)); [right; reflexivity|exact PW|exact X]).
    destruct (IH x B LX PX) as (v & E3 & LV & PV & RV). exists v. split; [exact E3|]. split; [exact LV|]. split; [exact PV|].
    intros l z H. cbn [repeat concat app].
    apply run_reaction with (at_ w); [apply flows; assumption|]. apply run_diffusion with (at_ x); [exact X|]. apply RV. exact H.
Qed.
Theorem evolution_ok : forall mu, length mu = n -> nonnegative n (at_ mu) ->
  exists self sol, StrangSplit lu n T m lambda DA DM = Ok self /\ Evolution self cap mu = Ok (map Fin sol) /\ length sol = n /\
    nonnegative n (at_ sol) /\ run n M A (at_ cap) lambda (schedule m (T / INR m)) (at_ mu) (at_ sol).
Proof.
  intros mu L P. pose proof tau_nonneg as TN. fold tau in TN |- *.
  destruct construct as (self & E & B). exists self.
  destruct (diffusion_ok self true mu B L) as (w & E1 & LW & W).
  assert (PW : nonnegative n (at_ w)) by (apply (KEEP (tau / 2) (at_ mu)); [left; reflexivity|exact P|exact W]).
  destruct (steps_ok self (m - 1 - 1) w B LW PW) as (x & E2 & LX & PX & RX).
  destruct (reaction_ok self (tau / 2) x B LX PX) as (v & E3 & LV & PV & V); [lra|].
  exists v. split; [exact E|]. split.
  - unfold Evolution. assert (EM : m_ self = m) by apply B. assert (EL : lambda_ self = lambda) by apply B. assert (ET : tau_ self = tau) by apply B.
    rewrite E1. cbn [bind]. rewrite EM, E2. cbn [bind]. rewrite EL, ET. replace (- lambda * tau / 2) with (- lambda * (tau / 2)) by field. exact E3.
  - split; [exact LV|]. split; [exact PV|]. unfold schedule. apply run_diffusion with (at_ w); [exact W|].
    replace (m - 2)%nat with (m - 1 - 1)%nat by lia. apply RX. apply run_reaction with (at_ v); [apply flows; try assumption; lra|].
    apply run_end. reflexivity.
Qed.
End Stepping.

(** * A solver *)
Definition eliminate_lu (D : dense Rring) : option (list R -> list R) :=
  Some (fun b => match eliminate D b with Ok x => x | _ => repeat 0 (length b) end).
Lemma eliminate_lu_exact : exact_lu eliminate_lu.
Proof.
  intros n D A (RR & CC & EE) INJ. eexists. split; [reflexivity|]. intros b Lb.
  destruct (eliminate_exact n D b RR CC Lb) as (x & E & LX & S1).
  - intros u H. apply INJ. intros i Hi. specialize (H i Hi). unfold mv in H. rewrite (sumn_to n) in H. rewrite <- H.
    unfold act. apply sum_to_ext. intros j Hj. rewrite EE by assumption. reflexivity.
  - rewrite E. split; [exact LX|]. intros i Hi. specialize (S1 i Hi). unfold mv in S1. rewrite (sumn_to n) in S1.
    etransitivity; [|exact S1]. unfold act. apply sum_to_ext. intros j Hj. rewrite EE by assumption. reflexivity.
Qed.
