(** Proofs for C103: symmetry, definiteness and kernels of the matrices of the Fisher-KPP project. *)
From Coq Require Import Reals List Arith Lia Lra Bool.
Import ListNotations.
From Verif Require Import Base Scalars MeshModel MeshView DofModel DofSpec RefPatModel GeoModel GeoSpec GeoProofs GeoProofs3 FeModel LagrModel QuadModel AssembleModel AssembleSpec AssembleProofs
  FeSpec FeProofs LagrProofs LagrProofs2 LagrProofs3 QuadSpec ElemModel ElemSpec ElemProofs ElemProofs2 ElemProofs3 ElemProofs7 FeToolsModel FeToolsSpec
  FeToolsProofs2 FlagModel ProlongProofs2 GalerkinModel GalerkinSpec GalerkinProofs GalerkinProofs2 GalerkinProofs3 GalerkinProofs4 GalerkinProofs8 GalerkinProofs9
  FisherSpec FisherModel2 FisherSpec2 FisherProofs5 FisherProofs6.
From Verif Require StokesProofs3 PolyProofs.
Local Open Scope R_scope.

Lemma vector_of : forall N (u : nat -> R) i, (i < N)%nat -> vector (map u (seq 0 N)) i = u i.
Proof. intros N u i H. unfold vector. rewrite (nth_indep _ 0 (u 0%nat)) by (rewrite map_length, seq_length; exact H). rewrite map_nth, seq_nth by exact H. reflexivity. Qed.
Lemma pairing_ext : forall N D E v u v' u', (forall i j, (i < N)%nat -> (j < N)%nat -> D i j = E i j) -> (forall i, (i < N)%nat -> v i = v' i) -> (forall i, (i < N)%nat -> u i = u' i) ->
  pairing N D v u = pairing N E v' u'.
Proof.
  intros N D E v u v' u' H1 H2 H3. unfold pairing. apply sum_to_ext. intros i Hi. rewrite (H2 i Hi). f_equal. unfold act. apply sum_to_ext. intros j Hj. rewrite H1, H3 by assumption. reflexivity.
Qed.
Lemma pairing_list : forall N D v u, pairing N D v u = pairing N D (vector (map v (seq 0 N))) (vector (map u (seq 0 N))).
Proof. intros. apply pairing_ext; intros; [reflexivity|rewrite vector_of; auto|rewrite vector_of; auto]. Qed.
Definition unit_at (i k : nat) : R := if (i =? k)%nat then 1 else 0.
Lemma sum_unit : forall N i (h : nat -> R), (i < N)%nat -> sum_to N (fun k => unit_at i k * h k) = h i.
Proof.
  intros N i h H. rewrite <- (StokesProofs3.sum_one N i h H). apply sum_to_ext. intros k _. unfold unit_at. destruct (i =? k)%nat; ring.
Qed.
Lemma pairing_unit : forall N D i j, (i < N)%nat -> (j < N)%nat -> pairing N D (unit_at i) (unit_at j) = D i j.
Proof.
  intros N D i j Hi Hj. unfold pairing. rewrite (sum_unit N i (act N D (unit_at j)) Hi). unfold act.
  rewrite <- (sum_unit N j (fun k => D i k) Hj). apply sum_to_ext. intros. ring.
Qed.
Lemma pairing_right : forall N D v j, (j < N)%nat -> pairing N D v (unit_at j) = sum_to N (fun i => v i * D i j).
Proof.
  intros N D v j Hj. unfold pairing. apply sum_to_ext. intros i _. f_equal. unfold act. rewrite <- (sum_unit N j (fun k => D i k) Hj). apply sum_to_ext. intros. ring.
Qed.
Lemma pairing_left : forall N D u i, (i < N)%nat -> pairing N D (unit_at i) u = act N D u i.
Proof. intros N D u i Hi. unfold pairing. apply (sum_unit N i (act N D u) Hi). Qed.

Section Consequences.
Variables (m : mesh) (V : fe_space) (geom : ent -> geo) (make : refel -> nat -> res quadrule) (rule : refel -> quadrule) (DL : nat -> nat -> R).
Let N := NumDofs (sp_dofs V).
Let q := fun e => rule (ent_type m e).
Let cells := entities m 0.
Let bd := filter (boundary_edge m) (entities m 1).
Hypothesis W : wf_mesh m.
Hypothesis EV : lagrange_space O1 m = Ok V.
Hypothesis RU : rules_for make rule.
Hypothesis PG : proper_geometry m geom rule.
Variables (cc hh vol vole : ent -> list R -> R).
Hypothesis VC : volumes geom vol cells.
Hypothesis VE : volumes geom vole bd.

Lemma volumes_good : good_volumes m V geom make rule vol vole.
Proof.
  destruct (volumes_exist m V geom make rule W EV RU PG) as (vol0 & vole0 & _ & _ & Pr & Re & Pr'). split; [exact VC|]. split; [exact VE|].
  split; [|split; [exact Re|]].
  - destruct Pr as [P1 P2 P3]. constructor; [exact P1|exact P2|]. intros e I. destruct (P3 e I) as (A1 & A2 & _). split; [exact A1|]. split; [exact A2|]. intros p Ip. apply VC; auto.
  - destruct Pr' as [P1 P2 P3]. constructor; [exact P1|exact P2|]. intros e I. destruct (P3 e I) as (A1 & A2 & _). split; [exact A1|]. split; [exact A2|]. intros p Ip. apply VE; auto.
Qed.
Let Pr := proj1 (proj2 (proj2 volumes_good)).
Let Re := proj1 (proj2 (proj2 (proj2 volumes_good))).
Let Pr' := proj2 (proj2 (proj2 (proj2 volumes_good))).

(** What [matrices_ok] says about the matrices. *)
Variables (DA DM : nat -> nat -> R).
Hypothesis FA : forall u v, length u = N -> length v = N -> forall x y, diffusion_form V geom q vol cells (fun e p => Scal (cc e p)) u v x ->
  mass_form V q vole bd hh u v y -> pairing N DA (vector v) (vector u) = x + y - pairing N DL (vector v) (vector u).
Hypothesis FM : forall u v, length u = N -> length v = N -> forall x, mass_form V q vol cells (fun _ _ => 1) u v x -> pairing N DM (vector v) (vector u) = x.

Lemma diffusion_some : forall u v, length u = N -> length v = N -> exists x, diffusion_form V geom q vol cells (fun e p => Scal (cc e p)) u v x.
Proof.
  intros u v Lu Lv. destruct (diffusion_defined V geom make q vol 0 (fun _ => true) (fun e p => Scal (cc e p)) u v) as (z & Hz); try rewrite (lagrange_mesh O1 m V EV), (cells_all m) in *; eauto.
  exact (cell_dim m geom make rule W RU PG).
Qed.
Lemma mass_some : forall c u v, length u = N -> length v = N -> exists x, mass_form V q vol cells c u v x.
Proof.
  intros c u v Lu Lv. destruct (mass_defined V geom make q vol 0 (fun _ => true) c u v) as (z & Hz); try rewrite (lagrange_mesh O1 m V EV), (cells_all m) in *; eauto.
Qed.
Lemma edge_some : forall c u v, length u = N -> length v = N -> exists x, mass_form V q vole bd c u v x.
Proof.
  intros c u v Lu Lv. destruct (mass_defined V geom (edge_rule make None) q vole 1 (boundary_edge m) c u v) as (z & Hz); try rewrite (lagrange_mesh O1 m V EV) in *; eauto.
Qed.
Lemma list_length : forall u : nat -> R, length (map u (seq 0 N)) = N. Proof. intros u. rewrite map_length, seq_length. reflexivity. Qed.

Lemma matrix_symmetric : symmetric N DL -> symmetric N DA /\ symmetric N DM.
Proof.
  intros SL. split; intros i j Hi Hj; rewrite <- (pairing_unit N _ i j Hi Hj), <- (pairing_unit N _ j i Hj Hi), !(pairing_list N _ (unit_at _)).
  - destruct (diffusion_some _ _ (list_length (unit_at j)) (list_length (unit_at i))) as (x & Hx). destruct (edge_some hh _ _ (list_length (unit_at j)) (list_length (unit_at i))) as (y & Hy).
    rewrite (FA _ _ (list_length _) (list_length _) _ _ Hx Hy).
    rewrite (FA _ _ (list_length _) (list_length _) x y); [|apply diffusion_symmetric; [intros; exact I|exact Hx]|apply mass_symmetric, Hy].
    rewrite <- !(pairing_list N DL). rewrite !pairing_unit by assumption. rewrite (SL i j Hi Hj). reflexivity.
  - destruct (mass_some (fun _ _ => 1) _ _ (list_length (unit_at j)) (list_length (unit_at i))) as (x & Hx).
    rewrite (FM _ _ (list_length _) (list_length _) _ Hx). symmetry. apply (FM _ _ (list_length _) (list_length _)). apply mass_symmetric, Hx.
Qed.
Hypothesis NW : forall t, t <> kPoint -> forall w, In w (qr_weights (rule t)) -> 0 <= w.
Lemma cell_weights : forall e, In e cells -> nonnegative_weights (q e).
Proof. intros e I w Hw. apply (NW (ent_type m e)); [destruct (lagrange_cell m W e I) as [-> | ->]; discriminate|exact Hw]. Qed.
Lemma edge_weights : forall e, In e bd -> nonnegative_weights (q e).
Proof. intros e I w Hw. apply (NW (ent_type m e)); [|exact Hw]. apply filter_In in I as (I & _). destruct (in_edges m e I) as (i & -> & _). discriminate. Qed.
Lemma scal_nonneg : forall d s, 0 <= s -> nonnegative_coeff d (Scal s).
Proof.
  intros d s H v. rewrite inner_rsum. apply rs_nonneg. intros k _. cbn [flux]. replace (v k * (s * v k)) with (s * (v k * v k)) by ring.
  apply Rmult_le_pos; [exact H|apply Rle_0_sqr].
Qed.
Lemma matrix_nonneg : (forall e p, In e cells -> In p (qr_points (q e)) -> 0 <= cc e p) -> (forall e p, In e bd -> In p (qr_points (q e)) -> 0 <= hh e p) ->
  (forall u, pairing N DL u u <= 0) -> nonnegative_form N DA /\ nonnegative_form N DM.
Proof.
  intros Hc Hh HLn. split; intros u; rewrite pairing_list.
  - destruct (diffusion_some _ _ (list_length u) (list_length u)) as (x & Hx). destruct (edge_some hh _ _ (list_length u) (list_length u)) as (y & Hy).
    rewrite (FA _ _ (list_length _) (list_length _) _ _ Hx Hy).
    assert (0 <= x). { eapply diffusion_nonneg; [exact Pr|exact cell_weights| |exact Hx]. intros e p I Ip. apply scal_nonneg, Hc; assumption. }
    assert (0 <= y). { eapply mass_nonneg; [exact Pr'|exact edge_weights|exact Hh|exact Hy]. }
    pose proof (HLn (vector (map u (seq 0 N)))). lra.
  - destruct (mass_some (fun _ _ => 1) _ _ (list_length u) (list_length u)) as (x & Hx). rewrite (FM _ _ (list_length _) (list_length _) _ Hx).
    eapply mass_nonneg; [exact Pr|exact cell_weights| |exact Hx]. intros. lra.
Qed.

(** *** Constants *)
Lemma vector_repeat : forall (c : R) i, (i < N)%nat -> vector (repeat c N) i = c.
Proof. intros c i H. unfold vector. rewrite (nth_indep _ 0 c) by (rewrite repeat_length; exact H). apply nth_repeat. Qed.
Lemma no_edge : (forall e p, In e bd -> In p (qr_points (q e)) -> hh e p = 0) -> forall u v y, mass_form V q vole bd hh u v y -> y = 0.
Proof.
  intros Z0 u v y (U & X & _ & _ & ->). apply sum_all_zero. intros e I. rewrite (quad_ext (q e) _ (fun _ => 0)); [apply PolyProofs.quadrature_zero|].
  intros p Ip. rewrite (Z0 e p I Ip). ring.
Qed.
Lemma lagrange_facts : forall e f, In e cells -> sp_layout V e = Some f -> counts f /\ partition_of_unity f /\ gradients_ok f /\ fe_el f = kind_el (go_kind (geom e)).
Proof.
  intros e f I Lo. destruct (V_is O1 m V EV) as (_ & _ & VL). rewrite VL in Lo. injection Lo as <-. destruct (lagrange_describes O1 (ent_type m e)) as (E1 & _ & E3 & _).
  split; [exact E3|]. split; [apply lagrange_unity|]. split; [apply lagrange_gradients; destruct (lagrange_cell m W e I) as [-> | ->]; discriminate|].
  rewrite E1. symmetry. apply (proj1 PG e I).
Qed.
Lemma matrix_constants : (forall e p, In e bd -> In p (qr_points (q e)) -> hh e p = 0) ->
  (forall i, (i < N)%nat -> sum_to N (fun j => DA i j) = - sum_to N (fun j => DL i j)) /\
  (forall j, (j < N)%nat -> sum_to N (fun i => DA i j) = - sum_to N (fun i => DL i j)).
Proof.
  intros Z0.
  assert (Cz : forall v x, diffusion_form V geom q vol cells (fun e p => Scal (cc e p)) (repeat 1 N) v x -> x = 0).
  { intros v x Hx. eapply (diffusion_constants V geom make q vol 0 (fun _ => true)); rewrite ?(lagrange_mesh O1 m V EV), ?(cells_all m); [exact Pr|exact (cell_dim m geom make rule W RU PG)|exact Re|exact lagrange_facts|exact Hx]. }
  assert (U : forall D v, sum_to N (fun i => v i * sum_to N (fun j => D i j)) = pairing N D v (vector (repeat 1 N))).
  { intros D v. unfold pairing. apply sum_to_ext. intros i _. f_equal. unfold act. apply sum_to_ext. intros j Hj. rewrite vector_repeat by exact Hj. ring. }
  split; intros k Hk.
  - destruct (diffusion_some _ _ (repeat_length 1 N) (list_length (unit_at k))) as (x & Hx). destruct (edge_some hh _ _ (repeat_length 1 N) (list_length (unit_at k))) as (y & Hy).
    pose proof (FA _ _ (repeat_length 1 N) (list_length (unit_at k)) _ _ Hx Hy) as E. rewrite (Cz _ _ Hx), (no_edge Z0 _ _ _ Hy), <- !U in E.
    rewrite !(sum_to_ext N (fun i => vector (map (unit_at k) (seq 0 N)) i * _) (fun i => unit_at k i * _)) in E by (intros i Hi; rewrite vector_of by exact Hi; reflexivity).
    rewrite (sum_unit N k (fun i => sum_to N (fun j => DA i j)) Hk), (sum_unit N k (fun i => sum_to N (fun j => DL i j)) Hk) in E. lra.
  - destruct (diffusion_some _ _ (repeat_length 1 N) (list_length (unit_at k))) as (x & Hx). destruct (edge_some hh _ _ (list_length (unit_at k)) (repeat_length 1 N)) as (y & Hy).
    pose proof (FA _ _ (list_length (unit_at k)) (repeat_length 1 N) x y) as E. specialize (E (diffusion_symmetric V geom q vol cells (fun e p => Scal (cc e p)) _ _ _ (fun _ _ _ _ => I) Hx) Hy).
    rewrite (Cz _ _ Hx), (no_edge Z0 _ _ _ Hy) in E.
    assert (Rw : forall D, pairing N D (vector (repeat 1 N)) (vector (map (unit_at k) (seq 0 N))) = sum_to N (fun i => D i k)).
    { intros D. rewrite (pairing_ext N D D _ _ (fun _ => 1) (unit_at k)); [|reflexivity|intros; apply vector_repeat; assumption|intros; apply vector_of; assumption].
      rewrite (pairing_right N D _ k Hk). apply sum_to_ext. intros. ring. }
    rewrite !Rw in E. lra.
Qed.
(** 1^T M u is the integral of u. *)
Lemma constant_values : forall c e p, In e cells -> In p (qr_points (q e)) -> fe_value V (repeat c N) e p = Ok c.
Proof.
  intros c e p I Ip. destruct (values_exist V geom make q vol (fun _ => true) 0) with (u := repeat c N) as (U & HU); rewrite ?(lagrange_mesh O1 m V EV), ?(cells_all m); [exact Pr|apply repeat_length|].
  rewrite ?(lagrange_mesh O1 m V EV), ?(cells_all m) in HU. rewrite (HU e I p Ip). f_equal.
  rewrite (values_sum V geom make q vol (fun _ => true) 0) with (u := repeat c N); rewrite ?(lagrange_mesh O1 m V EV), ?(cells_all m); [|exact Pr|apply repeat_length|exact HU|exact I|exact Ip].
  destruct (prepared_el V geom make q vol (fun _ => true) 0) with (e := e) as (l & El & -> & Lo & _ & _); rewrite ?(lagrange_mesh O1 m V EV), ?(cells_all m); [exact Pr|exact I|].
  destruct (lagrange_facts e _ I Lo) as (Co & Un & _ & Ef). destruct (pr_rule _ _ _ _ _ _ Pr e I) as (_ & Ad & _).
  destruct (Un p) as (v & Ev & Sv). { rewrite Ef, (proj1 (Ad p Ip)). destruct (go_kind (geom e)); reflexivity. }
  rewrite (eo_total _ _ _ _ El). transitivity (c * sum_to (fe_total (el_of V e)) (fun i => shapes (el_of V e) i p)).
  - rewrite <- sum_to_scal. apply sum_to_ext. intros i Hi. unfold loc. rewrite (nth_indep _ 0 c); [rewrite nth_repeat; reflexivity|]. rewrite repeat_length. apply (eo_range _ _ _ _ El). apply nth_In. rewrite (eo_total _ _ _ _ El). exact Hi.
  - assert (S1 : sum_to (fe_total (el_of V e)) (fun i => shapes (el_of V e) i p) = 1); [|rewrite S1; ring].
    rewrite <- Sv. unfold shapes. rewrite Ev. destruct (co_eval _ Co p) as (v' & Ev' & Lv). { rewrite Ef, (proj1 (Ad p Ip)). destruct (go_kind (geom e)); reflexivity. }
    rewrite Ev in Ev'. injection Ev' as <-. rewrite <- Lv. rewrite sum_to_rsum. f_equal. clear. apply (nth_ext _ _ 0 0); [rewrite map_length, seq_length; reflexivity|]. intros n Hn. rewrite map_length, seq_length in Hn.
    rewrite (nth_indep _ 0 (nth 0 v 0)) by (rewrite map_length, seq_length; exact Hn). rewrite (map_nth (fun i => nth i v 0)), seq_nth by exact Hn. reflexivity.
Qed.
Lemma matrix_population : forall u U, length u = N -> values_of V u q cells U ->
  pairing N DM (fun _ => 1) (vector u) = sum_over cells (fun e => quadrature (q e) (fun p => vol e p * U e p)).
Proof.
  intros u U Lu HU. rewrite (pairing_ext N DM DM _ _ (vector (repeat 1 N)) (vector u)); [|reflexivity|intros; symmetry; apply vector_repeat; assumption|reflexivity].
  apply (FM u (repeat 1 N) Lu (repeat_length 1 N)). exists U, (fun _ _ => 1). split; [exact HU|]. split; [intros e I p Ip; apply constant_values; assumption|].
  apply over_ext. intros e _. apply quad_ext. intros. ring.
Qed.
End Consequences.
