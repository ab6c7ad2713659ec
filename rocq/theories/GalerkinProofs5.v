(** Proofs for C76: the linear system with essential conditions. *)
From Coq Require Import Reals List Arith Lia Lra Bool.
Import ListNotations.
From Verif Require Import Base Scalars MeshModel MeshView DofModel DofSpec RefPatModel GeoModel GeoSpec FeModel QuadModel AssembleModel AssembleSpec AssembleProofs
  FeSpec FeProofs HierSpec HierProofs QuadSpec ElemModel ElemSpec ElemProofs3 FeToolsModel FeToolsSpec FeToolsProofs FeToolsProofs2 GalerkinModel GalerkinSpec GalerkinProofs GalerkinProofs2.
Local Open Scope R_scope.

(** *** Values at the nodes determine the local coefficients *)
Lemma combination_value : forall V e f l u p, sp_layout V e = Some f -> has_dofs V e l -> (forall g, In g l -> (g < length u)%nat) -> length l = fe_total f ->
  evaluates f p -> fe_value V u e p = combination f (map (fun g => nth g u 0) l) p.
Proof.
  intros V e f l u p Lo Hd RG LT (v & Ev & Lv). unfold combination. rewrite Ev. cbn [bind].
  eapply fe_value_ok; eauto. lia.
Qed.
Lemma traverse_ext : forall A B (F G : A -> res B) xs, (forall x, In x xs -> F x = G x) -> traverse F xs = traverse G xs.
Proof. intros A B F G xs. induction xs as [|x xs IH]; intros H; [reflexivity|]. cbn [traverse]. rewrite (H x (or_introl eq_refl)), IH; [reflexivity|]. intros; apply H; right; auto. Qed.
Lemma local_determined : forall V e u w, element_ok V e -> length u = NumDofs (sp_dofs V) -> length w = NumDofs (sp_dofs V) ->
  coincides V u (fe_value V w) e -> forall l g, has_dofs V e l -> In g l -> nth g u 0 = nth g w 0.
Proof.
  intros V e u w (f & l' & Lo & Hd & _ & RG & LT & _ & EVL & DU) Lu Lw C l g Hd' Ig. unfold has_dofs in *. rewrite Hd in Hd'. injection Hd' as ->.
  destruct (DU (map (fun g => nth g u 0) l) ltac:(rewrite map_length; exact LT)) as (a & Ta & Na).
  destruct (DU (map (fun g => nth g w 0) l) ltac:(rewrite map_length; exact LT)) as (b & Tb & Nb).
  rewrite (traverse_ext _ _ _ (combination f (map (fun g => nth g w 0) l))) in Ta.
  2:{ intros p Ip. rewrite <- !(combination_value V e f l) by (auto; first [rewrite Lu; exact RG|rewrite Lw; exact RG|apply EVL; exact Ip]). symmetry. exact (C f p Lo Ip). }
  rewrite Ta in Tb. injection Tb as ->. rewrite Na in Nb. injection Nb as E.
  apply In_nth_error in Ig as (j & Hj). pose proof (map_nth_error (fun g => nth g u 0) _ _ Hj) as A. pose proof (map_nth_error (fun g => nth g w 0) _ _ Hj) as B.
  rewrite E in A. congruence.
Qed.
Lemma zero_value : forall V e f l v p, sp_layout V e = Some f -> has_dofs V e l -> (forall g, In g l -> (g < length v)%nat) -> length l = fe_total f ->
  evaluates f p -> (forall g, In g l -> nth g v 0 = 0) -> fe_value V v e p = Ok 0.
Proof.
  intros V e f l v p Lo Hd RG LT Ev Zr. rewrite (combination_value V e f l) by assumption. destruct Ev as (b & Ev & Lb). unfold combination. rewrite Ev. cbn [bind]. f_equal.
  clear -Zr. revert b. induction l as [|g l IH]; intros [|y b]; try reflexivity. cbn [map]. rewrite dot_cons, Zr, IH; [ring| |left; reflexivity]. intros; apply Zr; right; auto.
Qed.

(** *** The system *)
Section Dirichlet.
Variable (V : fe_space) (sel : ent -> bool) (g : meshfun) (coef : list R).
Let N := NumDofs (sp_dofs V).
Let edges := entities (sp_mesh V) 1.
Hypothesis OK : forall e, In e edges -> sel e = true -> element_ok V e.
(** Shape functions can be evaluated everywhere on the edges. *)
Hypothesis EVAL : forall e f x, In e edges -> sel e = true -> sp_layout V e = Some f -> in_ref (ent_type (sp_mesh V) e) x -> evaluates f x.
Hypothesis NODES : forall e f p, In e edges -> sel e = true -> sp_layout V e = Some f -> In p (fe_nodes f) -> in_ref (ent_type (sp_mesh V) e) p.
Hypothesis Lc : length coef = N.
Hypothesis CG : forall e, In e edges -> sel e = true -> coincides V coef g e.

Lemma vanish_dofs : forall v, length v = N -> (vanishes_on V v sel <-> forall e k, In e edges -> sel e = true -> touches V e k -> nth k v 0 = 0).
Proof.
  intros v Lv. split.
  - intros H e k Ie Se (l & Hd & Ik).
    transitivity (nth k (repeat 0 N) 0); [|apply nth_repeat]. apply (local_determined V e v (repeat 0 N) (OK e Ie Se) Lv (repeat_length _ _)) with l; [|exact Hd|exact Ik].
    intros f p Lo Ip. rewrite (H e p Ie Se (NODES e f p Ie Se Lo Ip)). 
    destruct (OK e Ie Se) as (f' & l' & Lo' & Hd' & _ & RG & LT & _ & EVL & _). rewrite Lo in Lo'. injection Lo' as <-.
    apply (zero_value V e f l'); auto. { rewrite repeat_length. exact RG. } { exact (EVL p Ip). } intros; apply nth_repeat.
  - intros H e x Ie Se Hx. destruct (OK e Ie Se) as (f & l & Lo & Hd & _ & RG & LT & _).
    apply (zero_value V e f l); auto; [rewrite Lv; exact RG|eapply EVAL; eauto|]. intros k Ik. apply (H e k Ie Se). exists l. auto.
Qed.
Lemma agree_dofs : forall mu, length mu = N -> ((forall e, In e edges -> sel e = true -> coincides V mu g e) <->
  forall e k, In e edges -> sel e = true -> touches V e k -> nth k mu 0 = nth k coef 0).
Proof.
  intros mu Lm. split.
  - intros H e k Ie Se (l & Hd & Ik). apply (local_determined V e mu coef (OK e Ie Se) Lm Lc) with l; [|exact Hd|exact Ik].
    intros f p Lo Ip. rewrite <- (H e Ie Se f p Lo Ip). symmetry. exact (CG e Ie Se f p Lo Ip).
  - intros H e Ie Se f p Lo Ip. rewrite (CG e Ie Se f p Lo Ip). destruct (OK e Ie Se) as (f' & l & Lo' & Hd & _ & RG & LT & _ & EVL & _). rewrite Lo in Lo'. injection Lo' as <-.
    rewrite !(combination_value V e f l) by (auto; first [rewrite Lm; exact RG|rewrite Lc; exact RG|apply EVL; exact Ip]).
    f_equal. apply map_ext_in. intros k Ik. symmetry. apply (H e k Ie Se). exists l. auto.
Qed.

Definition unitv (n i : nat) : list R := map (fun j => if Nat.eqb j i then 1 else 0) (seq 0 n).
Lemma unitv_length : forall n i, length (unitv n i) = n. Proof. intros. unfold unitv. rewrite map_length, seq_length. reflexivity. Qed.
Lemma unitv_nth : forall n i j, (j < n)%nat -> nth j (unitv n i) 0 = if Nat.eqb j i then 1 else 0.
Proof. intros n i j H. unfold unitv. rewrite (nth_indep _ 0 (if Nat.eqb (length (seq 0 n)) i then 1 else 0)) by (rewrite map_length, seq_length; exact H).
  rewrite (map_nth (fun j => if Nat.eqb j i then 1 else 0)), nth_indep with (d' := 0%nat) by (rewrite seq_length; exact H). rewrite seq_nth by exact H. reflexivity. Qed.
Lemma sum_unit : forall n i (h : nat -> R), (i < n)%nat -> sum_to n (fun j => (if Nat.eqb j i then 1 else 0) * h j) = h i.
Proof.
  intros n i h Hi. rewrite <- sumn_to. rewrite (sumn_single Rring n i _ Hi).
  - cbn beta. rewrite Nat.eqb_refl. lra.
  - intros j _ Nj. cbn beta. destruct (Nat.eqb_spec j i); [contradiction|]. change (0 * h j = 0). ring.
Qed.

Lemma form_to : forall D v u, form Rring N N D (comp Rring v) (comp Rring u) = sum_to N (fun i => nth i v 0 * mv Rring N D (comp Rring u) i).
Proof. intros. apply sumn_to. Qed.

Theorem dirichlet_system : forall rA rb a l, galerkin_matrix V rA a -> galerkin_vector V rb l -> defined_forms V a l ->
  exists A b fv A' b' D', rA = Ok A /\ rb = Ok b /\ InitEssentialConditionFromFunction V sel g = Ok fv /\
    FixFlaggedSolutionComponents Rring (fun i => nth i fv (false, 0)) A b = Ok (A', b') /\
    AssembleSpec.is_matrix Rring A' N N D' /\ length b' = N /\
    forall mu, length mu = N -> (solves Rring N D' (comp Rring b') (comp Rring mu) <-> weak_solution V sel g a l mu).
Proof.
  intros rA rb a l (A & D & EA & MA & FA) (b & Eb & Lb & Fb) (DA & DL). fold N in MA, FA, Lb, Fb, DA, DL.
  destruct (essential_fe V coef g Lc sel) as (fv & Ef & Lf & Vf); [intros e Ie Se; split; [apply OK; auto|apply CG; auto]|]. fold N in Lf, Vf. fold edges in Vf.
  destruct (fix_flagged Rring (fun i => nth i fv (false, 0)) A b N D MA Lb) as (A' & b' & D' & EF & Lb' & M' & S' & _).
  exists A, b, fv, A', b', D'. do 6 (split; [assumption|]). intros mu Lm. rewrite S'. unfold weak_solution. fold edges. rewrite (agree_dofs mu Lm).
  assert (FL : forall i, (i < N)%nat -> (fst (nth i fv (false, 0)) = true /\ snd (nth i fv (false, 0)) = nth i coef 0 /\ exists e, In e edges /\ sel e = true /\ touches V e i) \/
     (fst (nth i fv (false, 0)) = false /\ untouched V sel edges i)).
  { intros i Hi. destruct (Vf i Hi) as [[U E]|[T E]]; rewrite (nth_error_nth _ _ _ E); [right|left]; auto. }
  split.
  - intros [S1 S2]. split.
    + intros e k Ie Se T. assert (Hk : (k < N)%nat) by (destruct T as (l0 & Hd & Ik); destruct (OK e Ie Se) as (f & l1 & _ & Hd' & _ & RG & _); unfold has_dofs in *; rewrite Hd in Hd'; injection Hd' as ->; apply RG; exact Ik).
      destruct (FL k Hk) as [(F1 & F2 & _)|(F1 & F2)]; [|exfalso; exact (F2 e Ie Se T)]. rewrite <- F2. exact (S1 k Hk F1).
    + intros v x y Lv Vv Ha Hl. rewrite <- (FA mu v x Lm Lv Ha), <- (Fb v y Lv Hl), form_to. apply sum_to_ext. intros i Hi.
      destruct (FL i Hi) as [(F1 & _ & e & Ie & Se & T)|(F1 & _)].
      * pose proof (proj1 (vanish_dofs v Lv) Vv e i Ie Se T) as Z0.
        transitivity (0 * mv Rring N D (comp Rring mu) i); [apply (f_equal (fun t : R => t * mv Rring N D (comp Rring mu) i) Z0)|].
        transitivity 0; [apply Rmult_0_l|]. rewrite Z0. symmetry. apply Rmult_0_r.
      * rewrite (S2 i Hi F1). unfold comp. apply Rmult_comm.
  - intros [S1 S2]. split; intros i Hi F.
    + destruct (FL i Hi) as [(_ & F2 & e & Ie & Se & T)|(F1 & _)]; [|exfalso; exact (diff_true_false (eq_trans (eq_sym F) F1))]. exact (eq_trans (S1 e i Ie Se T) (eq_sym F2)).
    + destruct (FL i Hi) as [(F1 & _)|(_ & U)]; [exfalso; exact (diff_true_false (eq_trans (eq_sym F1) F))|]. pose proof (unitv_length N i) as Lu.
      assert (Vu : vanishes_on V (unitv N i) sel).
      { apply vanish_dofs; [exact Lu|]. intros e k Ie Se T. destruct (Nat.lt_ge_cases k N) as [Hk|Hk]; [|apply nth_overflow; rewrite Lu; exact Hk].
        rewrite unitv_nth by exact Hk. destruct (Nat.eqb_spec k i) as [->|]; [exfalso; exact (U e Ie Se T)|reflexivity]. }
      destruct (DA mu (unitv N i) Lm Lu) as (x & Hx). destruct (DL (unitv N i) Lu) as (y & Hy). pose proof (S2 _ x y Lu Vu Hx Hy) as E.
      rewrite <- (FA _ _ _ Lm Lu Hx), <- (Fb _ _ Lu Hy), form_to in E.
      rewrite (sum_to_ext N _ (fun j => (if Nat.eqb j i then 1 else 0) * mv Rring N D (comp Rring mu) j)) in E by (intros j Hj; rewrite unitv_nth by exact Hj; reflexivity).
      rewrite sum_unit in E by exact Hi.
      rewrite (sum_to_ext N _ (fun j => (if Nat.eqb j i then 1 else 0) * nth j b 0)) in E by (intros j Hj; rewrite unitv_nth by exact Hj; ring).
      rewrite sum_unit in E by exact Hi. exact E.
Qed.
End Dirichlet.
