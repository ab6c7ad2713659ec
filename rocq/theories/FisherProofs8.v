(** Proofs for C103: the mass matrix is positive definite; localQuadFunction. *)
From Coq Require Import Reals List Arith Lia Lra Bool.
Import ListNotations.
From Verif Require Import Base Scalars MeshModel MeshView DofModel DofSpec RefPatModel GeoModel GeoSpec GeoProofs GeoProofs3 FeModel LagrModel QuadModel AssembleModel AssembleSpec AssembleProofs
  FeSpec FeProofs LagrProofs LagrProofs2 LagrProofs3 QuadSpec ElemModel ElemSpec ElemProofs ElemProofs2 ElemProofs3 ElemProofs7 FeToolsModel FeToolsSpec
  FeToolsProofs2 FlagModel ProlongProofs2 GalerkinModel GalerkinSpec GalerkinProofs GalerkinProofs2 GalerkinProofs3 GalerkinProofs4 GalerkinProofs8 GalerkinProofs9
  FisherSpec FisherModel2 FisherSpec2 FisherProofs5 FisherProofs6 FisherProofs7.
From Verif Require StokesProofs3 PolyProofs HierProofs3.
Local Open Scope R_scope.

Lemma all_zero : forall A (F : A -> R) l, (forall x, In x l -> 0 <= F x) -> fold_right Rplus 0 (map F l) = 0 -> forall x, In x l -> F x = 0.
Proof.
  intros A F l. induction l as [|y l IH]; intros P Z0 x I; [destruct I|]. cbn [map fold_right] in Z0.
  assert (0 <= F y) by (apply P; left; reflexivity). assert (0 <= fold_right Rplus 0 (map F l)). { apply rs_nonneg. intros z Hz. apply P. right. exact Hz. }
  destruct I as [<-|I]; [lra|]. apply IH; auto; [intros; apply P; right; auto|lra].
Qed.
Lemma quad_all_zero : forall q (F : list R -> R), length (qr_weights q) = length (qr_points q) -> (forall w, In w (qr_weights q) -> 0 < w) ->
  (forall p, In p (qr_points q) -> 0 <= F p) -> quadrature q F = 0 -> forall p, In p (qr_points q) -> F p = 0.
Proof.
  intros q F L PW PF Z0 p Ip. rewrite (quad_idx q F L) in Z0. destruct (In_nth _ _ [] Ip) as (k & Hk & <-).
  assert (Wk : 0 < nth k (qr_weights q) 0) by (apply PW, nth_In; lia).
  assert (E : nth k (qr_weights q) 0 * F (nth k (qr_points q) []) = 0).
  { apply (all_zero _ (fun k => nth k (qr_weights q) 0 * F (nth k (qr_points q) [])) (seq 0 (NumPoints q))); [|exact Z0|apply in_seq; unfold NumPoints; lia].
    intros j Hj. apply in_seq in Hj. unfold NumPoints in Hj. apply Rmult_le_pos; [left; apply PW, nth_In; lia|apply PF, nth_In; lia]. }
  apply Rmult_integral in E. destruct E as [E|E]; [lra|exact E].
Qed.

Lemma gramian_nonneg : forall d J, 0 <= gramian_det d J.
Proof.
  intros d J. unfold gramian_det. destruct J as [|a [|b [|x J]]]; cbn [length]; try lra.
  - apply rs_nonneg. intros k _. apply Rle_0_sqr.
  - pose proof (cauchy_schwarz d a b) as H. replace (gramian d [a; b] 0 0 * gramian d [a; b] 1 1 - gramian d [a; b] 0 1 * gramian d [a; b] 1 0) with (gram_det d a b); [exact H|].
    assert (C : gramian d [a; b] 1 0 = gramian d [a; b] 0 1). { unfold gramian. apply inner_comm. }
    rewrite C. reflexivity.
Qed.

Section Positive.
Variables (m : mesh) (V : fe_space) (geom : ent -> geo) (make : refel -> nat -> res quadrule) (rule : refel -> quadrule).
Let N := NumDofs (sp_dofs V).
Let q := fun e => rule (ent_type m e).
Let cells := entities m 0.
Let bd := filter (boundary_edge m) (entities m 1).
Hypothesis W : wf_mesh m.
Hypothesis Cm : complete_mesh m.
Hypothesis EV : lagrange_space O1 m = Ok V.
Hypothesis RU : rules_for make rule.
Hypothesis PG : proper_geometry m geom rule.
Hypothesis DR : determining rule.
Hypothesis PW : positive_weights rule.
Variables (vol vole : ent -> list R -> R).
Hypothesis VC : volumes geom vol cells.
Hypothesis VE : volumes geom vole bd.
Variable (DM : nat -> nat -> R).
Hypothesis FM : forall u v, length u = N -> length v = N -> forall x, mass_form V q vol cells (fun _ _ => 1) u v x -> pairing N DM (vector v) (vector u) = x.
Let Pr := proj1 (proj2 (proj2 (volumes_good m V geom make rule W EV RU PG vol vole VC VE))).

Lemma volume_positive : forall e p, In e cells -> In p (qr_points (q e)) -> 0 < vol e p.
Proof.
  intros e p I Ip. destruct (cell_fits m geom make rule W RU PG e I) as (_ & _ & _ & Ad & ND). destruct (VC e p I (Ad p Ip)) as (J & HJ & ->).
  destruct (ND p Ip) as (J' & HJ' & D0). rewrite HJ in HJ'. injection HJ' as <-. destruct (Rle_or_lt (gramian_det (go_dim (geom e)) J) 0) as [H|H]; [|apply sqrt_lt_R0, H].
  exfalso. apply D0. apply Rle_antisym; [exact H|]. apply gramian_nonneg.
Qed.
Lemma mass_positive : positive_form N DM.
Proof.
  intros u i Hi Hu. set (ul := map u (seq 0 N)). assert (Lu : length ul = N) by apply list_length.
  rewrite pairing_list. fold ul. destruct (mass_some m V geom make rule W EV RU PG vol vole VC VE (fun _ _ => 1) ul ul Lu Lu) as (x & Hx).
  rewrite (FM ul ul Lu Lu x Hx). destruct Hx as (U & X & HU & HX & ->).
  assert (NN : forall e, In e cells -> 0 <= quadrature (q e) (fun p => vol e p * (1 * X e p * U e p))).
  { intros e I. destruct (pr_rule _ _ _ _ _ _ Pr e I) as (Lw & _ & Vl). apply quad_nonneg; [exact Lw| |].
    - intros w Hw. left. apply (PW (ent_type m e)); [destruct (lagrange_cell m W e I) as [-> | ->]; discriminate|exact Hw].
    - intros p Ip. apply Rmult_le_pos; [eapply vol_nonneg, Vl, Ip|]. rewrite (values_agree V ul q cells X U e p HX HU I Ip), Rmult_1_l. apply Rle_0_sqr. }
  apply Rnot_le_lt. intros Z1. assert (Z0 : sum_over cells (fun e => quadrature (q e) (fun p => vol e p * (1 * X e p * U e p))) = 0).
  { apply Rle_antisym; [exact Z1|]. apply rs_nonneg, NN. }
  assert (UZ : forall e p, In e cells -> In p (qr_points (q e)) -> U e p = 0).
  { intros e p I Ip. pose proof (all_zero _ _ _ NN Z0 e I) as Q0. destruct (pr_rule _ _ _ _ _ _ Pr e I) as (Lw & _ & Vl).
    apply (quad_all_zero (q e) (fun p => vol e p * (1 * X e p * U e p)) Lw) with (p := p) in Q0; [| | |exact Ip].
    - rewrite (values_agree V ul q cells X U e p HX HU I Ip), Rmult_1_l in Q0. pose proof (volume_positive e p I Ip). apply Rmult_integral in Q0. destruct Q0 as [Q0|Q0]; [lra|].
      apply Rmult_integral in Q0. tauto.
    - intros w Hw. apply (PW (ent_type m e)); [destruct (lagrange_cell m W e I) as [-> | ->]; discriminate|exact Hw].
    - intros p' Ip'. apply Rmult_le_pos; [eapply vol_nonneg, Vl, Ip'|]. rewrite (values_agree V ul q cells X U e p' HX HU I Ip'), Rmult_1_l. apply Rle_0_sqr. }
  destruct (V_is O1 m V EV) as (VM & VD & VL).
  destruct (all_touched m _ _ W (Pd O1 m W) (Cd O1 m W) Cm i) as (c & l & Vc & G & Il). { unfold N in Hi. rewrite VD in Hi. exact Hi. }
  assert (I : In (ECell c) cells) by (apply cells_in; exact Vc).
  destruct (prepared_el V geom make q vol (fun _ => true) 0) with (e := ECell c) as (l' & El & Ei & Lo & _ & _); rewrite ?(lagrange_mesh O1 m V EV), ?(cells_all m); [exact Pr|exact I|].
  assert (Hl : l' = l). { pose proof (eo_dofs _ _ _ _ El) as Hd. unfold has_dofs in Hd. rewrite VD in Hd. rewrite G in Hd. injection Hd as <-. reflexivity. } rewrite Hl in El, Ei. clear Hl l'.
  assert (Lo' : lagrange O1 (ent_type m (ECell c)) = el_of V (ECell c)) by (rewrite VL in Lo; congruence). clear Lo. rename Lo' into Lo. destruct (In_nth _ _ 0%nat Il) as (k & Hk & Ek).
  assert (Tk : (k < fe_total (lagrange O1 (ent_type m (ECell c))))%nat) by (rewrite Lo, <- (eo_total _ _ _ _ El); exact Hk).
  apply Hu. rewrite <- (vector_of N u i Hi). fold ul. rewrite <- Ek.
  apply (DR (ent_type m (ECell c)) (lagrange_cell m W _ I) (fun k => vector ul (nth k l 0%nat))); [|exact Tk].
  intros p v Ip Ev. transitivity (U (ECell c) p); [|exact (UZ (ECell c) p I Ip)].
  rewrite (values_sum V geom make q vol (fun _ => true) 0) with (u := ul); rewrite ?(lagrange_mesh O1 m V EV), ?(cells_all m); [|exact Pr|exact Lu|exact HU|exact I|exact Ip].
  rewrite Ei, (eo_total _ _ _ _ El), <- Lo. apply sum_to_ext. intros j _. unfold loc, vector, shapes. rewrite Ev. reflexivity.
Qed.
End Positive.

(** *** localQuadFunction *)
Section Local.
Variables (m : mesh) (geom : ent -> geo) (rules : refel -> option quadrule) (f : vec -> R) (codim : nat) (pred : ent -> bool).
Let es := filter pred (entities m codim).
Lemma quad_loop : forall q g vol h s, rule_on q g vol -> (forall p x, Global g p = Ok x -> h p = f x) ->
  (do zeta <- traverse (Global g) (qr_points q); do gram_dets <- traverse (IntegrationElement g) (qr_points q);
   Ok (fold_left (fun s l => s + nth l (qr_weights q) 0 * f (nth l zeta vzero) * nth l gram_dets 0) (seq 0 (NumPoints q)) s)) =
  Ok (s + quadrature q (fun p => vol p * h p)).
Proof.
  intros q g vol h s (Lw & Ad & Vl) Hf.
  rewrite (HierProofs3.traverse_map _ _ (Global g) (fun x => global_at g (nth 0 x 0) (nth 1 x 0))) by (intros p Ip; apply Global_ok, Ad, Ip).
  rewrite (dets q g Ad vol Vl). cbn [bind]. f_equal. rewrite (quad_idx q _ Lw).
  assert (H : forall l s, (forall k, In k l -> (k < NumPoints q)%nat) ->
    fold_left (fun s l => s + nth l (qr_weights q) 0 * f (nth l (map (fun x => global_at g (nth 0 x 0) (nth 1 x 0)) (qr_points q)) vzero) * nth l (map vol (qr_points q)) 0) l s =
    s + rsum (map (fun k => nth k (qr_weights q) 0 * (vol (nth k (qr_points q) []) * h (nth k (qr_points q) []))) l)).
  { induction l as [|k l IH]; intros s0 Hl; cbn [fold_left map]; [cbn; ring|]. rewrite IH by (intros; apply Hl; right; auto).
    assert (Hk : (k < NumPoints q)%nat) by (apply Hl; left; reflexivity).
    rewrite !nth_map_in by exact Hk. rewrite (Hf (nth k (qr_points q) []) _ (Global_ok _ _ (Ad _ (pt_in q k Hk)))). change (rsum (?a :: ?b)) with (a + rsum b). ring. }
  apply H. intros k Hk. apply in_seq in Hk. lia.
Qed.
Theorem local_quad : forall q vol h, (codim <= 2)%nat -> (forall e, In e es -> rules (ent_type m e) = Some (q e) /\ rule_on (q e) (geom e) (vol e)) -> values_at_points geom f h ->
  localQuadFunction m geom rules f codim pred = Ok (sum_over es (fun e => quadrature (q e) (fun p => vol e p * h e p))).
Proof.
  intros q vol h Hc H Hf. unfold localQuadFunction. rewrite (proj2 (Nat.leb_le _ _) Hc). cbn [lf_assert bind].
  assert (G : forall l s, (forall e, In e l -> pred e = true -> rules (ent_type m e) = Some (q e) /\ rule_on (q e) (geom e) (vol e)) ->
    each l (fun entity sum_var => if pred entity then match rules (ent_type m entity) with
      | Some qr => do zeta <- traverse (Global (geom entity)) (qr_points qr); do gram_dets <- traverse (IntegrationElement (geom entity)) (qr_points qr);
          Ok (fold_left (fun s l => s + nth l (qr_weights qr) 0 * f (nth l zeta vzero) * nth l gram_dets 0) (seq 0 (NumPoints qr)) sum_var)
      | None => Throw end else Ok sum_var) s = Ok (s + sum_over (filter pred l) (fun e => quadrature (q e) (fun p => vol e p * h e p)))).
  { unfold each. induction l as [|e l IH]; intros s Hl; cbn [fold_left filter]; [cbn; f_equal; ring|]. cbn [bind]. destruct (pred e) eqn:Pe.
    - destruct (Hl e (or_introl eq_refl) Pe) as (-> & RO). rewrite (quad_loop (q e) (geom e) (vol e) (h e) s RO (Hf e)). rewrite IH by (intros; apply Hl; [right|]; assumption).
      f_equal. unfold sum_over. cbn [map fold_right]. ring.
    - apply IH. intros; apply Hl; [right|]; assumption. }
  rewrite G; [f_equal; unfold es; ring|]. intros e I Pe. apply H, filter_In. auto.
Qed.
Theorem local_quad_missing : forall e q vol h l1 l2, (codim <= 2)%nat -> entities m codim = l1 ++ e :: l2 -> pred e = true -> rules (ent_type m e) = None ->
  (forall e, In e (filter pred l1) -> rules (ent_type m e) = Some (q e) /\ rule_on (q e) (geom e) (vol e)) -> values_at_points geom f h ->
  localQuadFunction m geom rules f codim pred = Throw.
Proof.
  intros e q vol h l1 l2 Hc E Pe Ne H Hf. unfold localQuadFunction. rewrite (proj2 (Nat.leb_le _ _) Hc). cbn [lf_assert bind]. rewrite E. clear E.
  unfold each. rewrite fold_left_app.
  assert (G : forall l s, (forall e, In e (filter pred l) -> rules (ent_type m e) = Some (q e) /\ rule_on (q e) (geom e) (vol e)) -> exists s',
    fold_left (fun r entity => do sum_var <- r; if pred entity then match rules (ent_type m entity) with
      | Some qr => do zeta <- traverse (Global (geom entity)) (qr_points qr); do gram_dets <- traverse (IntegrationElement (geom entity)) (qr_points qr);
          Ok (fold_left (fun s l => s + nth l (qr_weights qr) 0 * f (nth l zeta vzero) * nth l gram_dets 0) (seq 0 (NumPoints qr)) sum_var)
      | None => Throw end else Ok sum_var) l (Ok s) = Ok s').
  { induction l as [|e0 l IH]; intros s Hl; cbn [fold_left]; [eauto|]. cbn [bind filter] in *. destruct (pred e0) eqn:P0; [|apply IH, Hl].
    destruct (Hl e0 (or_introl eq_refl)) as (-> & RO). rewrite (quad_loop (q e0) (geom e0) (vol e0) (h e0) s RO (Hf e0)). apply IH. intros; apply Hl; right; assumption. }
  destruct (G l1 0 H) as (s' & ->). cbn [fold_left bind]. rewrite Pe, Ne. clear. induction l2 as [|x l IH]; [reflexivity|]. cbn [fold_left bind]. exact IH.
Qed.
End Local.
