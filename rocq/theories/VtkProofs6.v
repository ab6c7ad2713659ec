(** Proofs for C71 - C73: writers. *)
From Coq Require Import Reals String List Arith Bool Lia Lra.
Import ListNotations.
From Verif Require Import Base MeshModel MeshView DofModel DofSpec AssembleModel GeoModel GeoSpec FeModel FeSpec FeToolsModel TransferSpec TransferProofs2 TransferProofs3 GeoProofs ProlongProofs
  ConformSpec ConformProofs2 VtkModel VtkSpec VtkProofs VtkProofs2 VtkProofs3 VtkProofs4 VtkProofs5.
Local Open Scope nat_scope.

Lemma shape_value : forall m geom e x, has_shapes m geom -> valid m e -> in_ref (ent_type m e) x -> exists v, Global (geom e) x = Ok v.
Proof.
  intros m geom e x S V Hx. specialize (S e V). assert (LX : length x = dim_local (go_kind (geom e))) by (unfold dim_local; rewrite S; apply in_ref_length; auto).
  unfold Global, with_local. rewrite (proj2 (Nat.eqb_eq _ _) LX). unfold range_check.
  destruct (is_o2 (go_kind (geom e))); [|eexists; reflexivity].
  rewrite (proj2 (in_range_true x)); [eexists; reflexivity|]. intros z Hz. rewrite <- S in Hx.
  destruct (kind_el (go_kind (geom e))); destruct x as [|a [|b [|c x]]]; cbn in Hx, Hz; try tauto; destruct Hz as [<-|Hz]; try tauto; try (destruct Hz as [<-|[]]); lra.
Qed.
Lemma point3_place : forall geom d cast e x, 1 <= d <= 3 -> point3 geom d cast e x = place d cast geom e x.
Proof. intros geom d cast e x H. unfold point3, place. destruct (Global (geom e) x); cbn [bind]; auto. destruct d as [|[|[|[|d]]]]; try lia; reflexivity. Qed.
Lemma place_same : forall d cast geom e x e' x', same_point (geom e) x (geom e') x' -> go_dim (geom e) = d -> place d cast geom e x = place d cast geom e' x'.
Proof.
  intros d cast geom e x e' x' (D & p & q & Gp & Gq & EQ) Hd. unfold place. rewrite Gp, Gq. cbn [bind]. f_equal. unfold in_file. rewrite Hd in EQ.
  assert (X : forall k, (if k <? d then cast (p k) else 0%R) = (if k <? d then cast (q k) else 0%R)). { intros k. destruct (k <? d) eqn:K; auto. apply Nat.ltb_lt in K. rewrite EQ by exact K. reflexivity. }
  rewrite !X. reflexivity.
Qed.
Lemma place_agrees : forall m d geom cast codim, wf_mesh m -> watertight m d geom -> has_shapes m geom -> agreeing m codim (place d cast geom).
Proof.
  intros m d geom cast codim W WT HS. split.
  - intros e x V _ Hx. destruct (shape_value m geom e x HS V Hx) as (v & Ev). unfold place. rewrite Ev. cbn. eauto.
  - intros i c j e o t _ Ec Ee Eo Ht. apply place_same; [eapply wt_edge; eauto|]. apply (wt_dim _ _ _ WT). eapply valid_cell_i; eauto.
  - intros i c j n _ Ec En. apply place_same; [eapply wt_corner; eauto|]. apply (wt_dim _ _ _ WT). eapply valid_cell_i; eauto.
  - intros e a b Ee. assert (D : go_dim (geom (EEdge e)) = d) by (apply (wt_dim _ _ _ WT); cbn; apply nth_error_Some; congruence).
    destruct (wt_ends _ _ _ WT e a b Ee) as [A1 A2]. split; apply place_same; auto.
Qed.
(** What holds of every writer. *)
Record sound (m : mesh) (codim n : nat) (g0 : grid) (w : writer) : Prop := {
  sd_codim : vw_codim w = codim;
  sd_order : vw_order w = n;
  sd_off : off_ok m n codim (vw_off1 w) (vw_off0 w);
  sd_grid : vf_grid (vw_file w) = g0;
  sd_length : length (g_points g0) = num_points m codim n;
  sd_cells : length (g_cells g0) = mv_count m codim;
  sd_types : length (g_types g0) = mv_count m codim;
  sd_header : vf_header (vw_file w) = EmptyString;
  sd_point : Forall (complete_attribute (length (g_points g0))) (vf_point (vw_file w));
  sd_cell : Forall (complete_attribute (length (g_cells g0))) (vf_cell (vw_file w));
  sd_pn : NoDup (point_names w) /\ Forall (fun s => contains space s = false) (point_names w);
  sd_cn : NoDup (cell_names w) /\ Forall (fun s => contains space s = false) (cell_names w);
  sd_fn : NoDup (map fd_name (vf_field (vw_file w))) /\ Forall (fun s => contains space s = false) (map fd_name (vf_field (vw_file w)))
}.
Lemma filled_complete : forall A m n codim (val : ent -> list R -> res A) r, wf_mesh m -> 1 <= n -> codim < 2 -> filled m n codim val r -> complete (num_points m codim n) r.
Proof.
  intros A m n codim val r W N1 HC [LR F]. split; auto. intros p Hp. destruct (nb_onto _ _ _ _ _ (vidx_numbering m W n N1 codim HC) p Hp) as (l & VL & <-). destruct (F l VL) as (v & _ & Ev). eauto.
Qed.

Theorem new_writer_ok : forall m d geom cast codim n, wf_mesh m -> watertight m d geom -> has_shapes m geom -> 1 <= d <= 3 -> codim < 2 -> 1 <= n <= 10 ->
  exists w, new_writer m geom d cast codim n = Ok w /\ sound m codim n (vf_grid (vw_file w)) w /\
    let g := vf_grid (vw_file w) in
    vtk_cells m n codim (g_cells g) /\ (forall e, written m codim e -> nth_error (g_types g) (ent_index e) = Some (vtk_type (ent_type m e) n)) /\
    filled m n codim (place d cast geom) (g_points g) /\ vf_point (vw_file w) = [] /\ vf_cell (vw_file w) = [] /\ vf_field (vw_file w) = [].
Proof.
  intros m d geom cast codim n W WT HS Hd HC Hn. unfold new_writer.
  rewrite (proj2 (Nat.ltb_lt 0 d)), (proj2 (Nat.leb_le d 4)), (proj2 (Nat.ltb_lt codim 2)), (proj2 (Nat.ltb_lt 0 n)), (proj2 (Nat.leb_le n 10)) by lia. cbn [andb lf_assert bind].
  assert (N1 : 1 <= n) by lia. assert (HV : has_values m codim (point3 geom d cast)).
  { intros e x V C X. rewrite point3_place by exact Hd. apply (ag_value _ _ _ (place_agrees m d geom cast codim W WT HS)); auto. }
  destruct (grid_points m W n N1 geom d cast codim HC HV) as (r0 & r & off1 & off0 & E0 & E1 & FL & OF). rewrite E0. cbn [bind]. rewrite E1. cbn [bind].
  destruct (cells_ok m W n N1 codim HC off1 off0 OF) as (cells & types & EC & L1 & L2 & VC & VT). rewrite EC. cbn [bind].
  eexists. split; [reflexivity|]. cbn [vw_file vf_grid g_points g_cells g_types vf_point vf_cell vf_field].
  assert (FL' : filled m n codim (place d cast geom) r). { destruct FL as [LR F]. split; auto. intros l VL. destruct (F l VL) as (v & F1 & F2). rewrite point3_place in F1 by exact Hd. eauto. }
  split; [|auto 10]. split; cbn [vw_codim vw_order vw_off1 vw_off0 vw_file vf_grid g_points g_cells g_types vf_point vf_cell vf_field vf_header]; auto; try apply FL.
  all: split; constructor.
Qed.

(** *** Steps *)
Definition extends {A} (f g : ent -> A) (ok : A -> Prop) : Prop := forall e, ok (f e) -> g e = f e.
Lemma node_loop_mono : forall A (f g : ent -> res A) es data r, (forall e v, f e = Ok v -> g e = Ok v) -> node_loop f es data = Ok r -> node_loop g es data = Ok r.
Proof.
  intros A f g es. induction es as [|e es IH]; intros data r H E; cbn [node_loop] in *; auto. apply bind_ok in E. destruct E as (v & Ev & E). rewrite (H _ _ Ev). cbn [bind].
  apply bind_ok in E. destruct E as (u & Eu & E). rewrite Eu. cbn [bind]. apply IH; auto.
Qed.
Lemma traverse_mono : forall A B (f g : A -> res B) l r, (forall e v, f e = Ok v -> g e = Ok v) -> traverse f l = Ok r -> traverse g l = Ok r.
Proof.
  intros A B f g l. induction l as [|a l IH]; intros r H E; cbn [traverse] in *; auto. apply bind_ok in E. destruct E as (v & Ev & E). rewrite (H _ _ Ev). cbn [bind].
  apply bind_ok in E. destruct E as (u & Eu & E). rewrite (IH _ H Eu). exact E.
Qed.
Lemma mf_loop_mono : forall A m n off (f g : ent -> list R -> res A) es data r, (forall e x v, f e x = Ok v -> g e x = Ok v) -> mf_loop m n off f es data = Ok r -> mf_loop m n off g es data = Ok r.
Proof.
  intros A m n off f g es. induction es as [|e es IH]; intros data r H E; cbn [mf_loop] in *; auto. destruct (_ || _); [apply IH; auto|].
  apply bind_ok in E. destruct E as (an & Ea & E). rewrite Ea. cbn [bind]. apply bind_ok in E. destruct E as (vs & Ev & E). rewrite (traverse_mono _ _ (f e) (g e) an vs) by auto. cbn [bind].
  destruct (nth_error off (ent_index e)); [|discriminate]. apply bind_ok in E. destruct E as (dd & Ed & E). rewrite Ed. cbn [bind]. apply IH; auto.
Qed.
Lemma mf_points_mono : forall A m w (f g : ent -> list R -> res A) r, (forall e x v, f e x = Ok v -> g e x = Ok v) -> mf_points m w f = Ok r -> mf_points m w g = Ok r.
Proof.
  intros A m w f g r H E. unfold mf_points in *. apply bind_ok in E. destruct E as (d1 & E1 & E). rewrite (node_loop_mono _ (fun e => f e []) (fun e => g e []) _ _ d1) by auto. cbn [bind].
  apply bind_ok in E. destruct E as (d2 & E2 & E). rewrite (mf_loop_mono _ _ _ _ f g _ _ d2) by auto. cbn [bind]. destruct (vw_codim w =? 0); [|exact E]. eapply mf_loop_mono; eauto.
Qed.
Lemma mf_points_complete : forall A (a0 : A) m codim n g0 w (mf : ent -> list R -> res A) (r : list (option A)), wf_mesh m -> 1 <= n -> codim < 2 -> sound m codim n g0 w -> mf_points m w mf = Ok r -> complete (length (g_points g0)) r.
Proof.
  intros A a0 m codim n g0 w mf r W N1 HC SD E. set (tot := fun e x => match mf e x with Ok v => Ok v | _ => Ok a0 end).
  assert (E' : mf_points m w tot = Ok r) by (apply mf_points_mono with mf; auto; intros e x v X; unfold tot; rewrite X; reflexivity).
  destruct (function_points m W n N1 A codim tot w) as (r' & Er & F); auto; try apply SD.
  { intros e x _ _ _. unfold tot. destruct (mf e x); eauto. } { rewrite (sd_grid _ _ _ _ _ SD). apply SD. }
  rewrite (sd_length _ _ _ _ _ SD). rewrite E' in Er. apply Ok_inj in Er. subst r'. eapply filled_complete; eauto.
Qed.
Lemma entities_values : forall A (f : ent -> res A) m codim N r, codim <= 2 -> N = mv_count m codim -> node_loop f (entities m codim) (repeat None N) = Ok r ->
  complete N r /\ forall e, In e (entities m codim) -> exists v, f e = Ok v /\ nth_error r (ent_index e) = Some (Some v).
Proof.
  intros A f m codim N r HC -> E.
  assert (OKS : forall e, In e (entities m codim) -> exists v, f e = Ok v).
  { revert E. generalize (repeat (@None A) (mv_count m codim)). induction (entities m codim) as [|e es IH]; intros data E e' H; [destruct H|]. cbn [node_loop] in E. apply bind_ok in E. destruct E as (v & Ev & E).
    apply bind_ok in E. destruct E as (u & _ & E). destruct H as [<-|H]; [eauto|eapply IH; eauto]. }
  assert (IX : map ent_index (entities m codim) = seq 0 (mv_count m codim)) by (unfold entities; apply ent_index_seq; intros; destruct codim as [|[|q]]; reflexivity).
  destruct (node_loop_ok A f (entities m codim) (repeat None (mv_count m codim))) as (r' & Er & LR & R1 & _); auto.
  { intros e H. rewrite repeat_length. apply (in_map ent_index) in H. rewrite IX in H. apply in_seq in H. lia. } { rewrite IX. apply seq_NoDup. }
  rewrite Er in E. apply Ok_inj in E. subst r'. rewrite repeat_length in LR. split; auto. split; auto. intros p Hp.
  assert (X : In p (map ent_index (entities m codim))) by (rewrite IX; apply in_seq; lia). apply in_map_iff in X. destruct X as (e & <- & He). destruct (R1 e He) as (v & _ & Ev). eauto.
Qed.
Lemma check_ok : forall used name, CheckAttributeSetName used name = Ok tt -> acceptable used name.
Proof.
  intros used name E. unfold CheckAttributeSetName in E. apply bind_ok in E. destruct E as (u & E1 & E2). unfold verify in *. destruct (existsb (String.eqb name) used) eqn:X; [discriminate|]. destruct (contains space name) eqn:Y; [discriminate|].
  split; auto. intros H. assert (Z : existsb (String.eqb name) used = true) by (apply existsb_exists; exists name; split; auto; apply String.eqb_refl). congruence.
Qed.
Lemma check_accepts : forall used name, acceptable used name -> CheckAttributeSetName used name = Ok tt.
Proof.
  intros used name [NI SP]. unfold CheckAttributeSetName. destruct (existsb (String.eqb name) used) eqn:X.
  - apply existsb_exists in X. destruct X as (s & Hs & Q). apply String.eqb_eq in Q. subst. tauto.
  - cbn [negb verify bind]. rewrite SP. reflexivity.
Qed.
Lemma check_rejects : forall used name, ~ acceptable used name -> CheckAttributeSetName used name = Throw.
Proof.
  intros used name H. destruct (CheckAttributeSetName used name) as [[]| |] eqn:E; auto.
  - destruct H. apply check_ok. exact E.
  - unfold CheckAttributeSetName in E. destruct (existsb (String.eqb name) used); cbn [negb verify bind] in E; [discriminate|]. destruct (contains space name); discriminate.
Qed.
Lemma names_snoc : forall l s, acceptable l s -> NoDup l /\ Forall (fun s => contains space s = false) l -> NoDup (l ++ [s]) /\ Forall (fun s => contains space s = false) (l ++ [s]).
Proof.
  intros l s [NI SP] [ND FA]. split.
  - rewrite <- (rev_involutive (l ++ [s])). apply NoDup_rev. rewrite rev_app_distr. cbn. constructor; [rewrite <- in_rev; exact NI|apply NoDup_rev; exact ND].
  - apply Forall_app. split; auto.
Qed.
Lemma sound_point : forall m codim n g0 w a, sound m codim n g0 w -> acceptable (point_names w) (a_name a) -> complete_attribute (length (g_points g0)) a -> sound m codim n g0 (add_point w a).
Proof.
  intros m codim n g0 w a [] AC CO. split; cbn; auto.
  - apply Forall_app. split; auto.
  - unfold point_names. cbn. rewrite map_app. apply names_snoc; auto.
Qed.
Lemma sound_cell : forall m codim n g0 w a, sound m codim n g0 w -> acceptable (cell_names w) (a_name a) -> complete_attribute (length (g_cells g0)) a -> sound m codim n g0 (add_cell w a).
Proof.
  intros m codim n g0 w a [] AC CO. split; cbn; auto.
  - apply Forall_app. split; auto.
  - unfold cell_names. cbn. rewrite map_app. apply names_snoc; auto.
Qed.
Ltac invb H := repeat (apply bind_ok in H; let a := fresh "r" in let H1 := fresh "E" in destruct H as (a & H1 & H)).
Lemma sound_step : forall m codim n g0 w op w', wf_mesh m -> 1 <= n -> codim < 2 -> sound m codim n g0 w -> vtk_step m w op = Ok w' -> sound m codim n g0 w'.
Proof.
  intros m codim n g0 w op w' W N1 HC SD E. pose proof SD as SD'. destruct SD as [SC SO OF GR LP LC LT HD FP FC PN CN FN].
  assert (NPV : mv_count m 2 = num_points m codim n -> True) by auto.
  assert (PV : n = 1 -> mv_count m 2 = length (g_points g0)).
  { intros ->. rewrite LP. rewrite num_points_total by (auto; lia). unfold coff, eoff. assert (Z : forall f k, (forall i, i < k -> f i = 0) -> before f k = 0). { intros f k. induction k as [|k IH]; intros H; [reflexivity|]. rewrite before_S, IH, H by (intros; auto; lia). reflexivity. }
    rewrite (Z (shareE 1)) by reflexivity. rewrite Z. { cbn. destruct (codim =? 0); lia. }
    intros i Hi. destruct (cells_below m 1 ltac:(lia) i Hi) as (c & Ec). destruct (cell_ty m W i c Ec) as [TY T]. unfold shareC, share. rewrite TY. destruct T as [-> | ->]; reflexivity. }
  destruct op as [b|name t ds u|name t ds u|name t ds u|name t ds u|name t mf|name t mf|name t mf|name t mf|name t data]; cbn [vtk_step] in E.
  - apply Ok_inj in E. subst w'. split; cbn; auto.
  - invb E. apply lf_assert_ok in E0. apply Nat.eqb_eq in E0. apply Ok_inj in E. subst w'. apply sound_point; auto; [apply check_ok; destruct r0; assumption|]. cbn [complete_attribute]. rewrite <- PV by congruence. apply (entities_values _ _ _ _ _ _ (le_n 2) eq_refl E2).
  - invb E. apply lf_assert_ok in E0. apply Nat.eqb_eq in E0. apply Ok_inj in E. subst w'. apply sound_point; auto; [apply check_ok; destruct r0; assumption|]. cbn [complete_attribute]. rewrite <- PV by congruence. apply (entities_values _ _ _ _ _ _ (le_n 2) eq_refl E3).
  - invb E. apply Ok_inj in E. subst w'. apply sound_cell; auto; [apply check_ok; destruct r; assumption|]. cbn [complete_attribute]. rewrite LC. rewrite SC in *. exact (proj1 (entities_values _ _ _ codim _ _ ltac:(lia) eq_refl E1)).
  - invb E. apply Ok_inj in E. subst w'. apply sound_cell; auto; [apply check_ok; destruct r; assumption|]. cbn [complete_attribute]. rewrite LC. rewrite SC in *. exact (proj1 (entities_values _ _ _ codim _ _ ltac:(lia) eq_refl E2)).
  - invb E. apply Ok_inj in E. subst w'. apply sound_point; auto; [apply check_ok; destruct r; assumption|]. cbn [complete_attribute]. eapply (mf_points_complete _ 0%R); eauto.
  - invb E. apply Ok_inj in E. subst w'. apply sound_point; auto; [apply check_ok; destruct r; assumption|]. cbn [complete_attribute]. eapply (mf_points_complete _ (0, 0, 0)%R); eauto.
  - invb E. apply Ok_inj in E. subst w'. apply sound_cell; auto; [apply check_ok; destruct r; assumption|]. cbn [complete_attribute]. rewrite LC. rewrite SC in *. exact (proj1 (entities_values _ _ _ codim _ _ ltac:(lia) eq_refl E1)).
  - invb E. apply Ok_inj in E. subst w'. apply sound_cell; auto; [apply check_ok; destruct r; assumption|]. cbn [complete_attribute]. rewrite LC. rewrite SC in *. exact (proj1 (entities_values _ _ _ codim _ _ ltac:(lia) eq_refl E1)).
  - invb E. apply Ok_inj in E. subst w'. split; cbn; auto. rewrite map_app. apply names_snoc; auto. apply check_ok. destruct r; assumption.
Qed.
Lemma sound_run : forall m codim n g0 ops w w', wf_mesh m -> 1 <= n -> codim < 2 -> sound m codim n g0 w -> run_vtk m w ops = Ok w' -> sound m codim n g0 w'.
Proof.
  intros m codim n g0 ops. induction ops as [|op ops IH]; intros w w' W N1 HC SD E; cbn [run_vtk] in E.
  - apply Ok_inj in E. subst. exact SD.
  - destruct (vtk_step m w op) as [w1| |] eqn:E1; [|eapply IH; eauto|discriminate]. apply (IH w1); auto. eapply sound_step; eauto.
Qed.
Lemma verify_all_ok : forall A (p : A -> bool) l, Forall (fun a => p a = true) l -> verify_all p l = Ok tt.
Proof. induction 1; cbn; auto. rewrite H. cbn. exact IHForall. Qed.
Lemma sound_valid : forall m codim n g0 w, sound m codim n g0 w -> ValidateVtkFile (vw_file w) = Ok tt.
Proof.
  intros m codim n g0 w []. unfold ValidateVtkFile. rewrite sd_header0, sd_grid0. cbn [contains negb verify bind String.length Nat.leb]. rewrite sd_cells0, sd_types0, Nat.eqb_refl. cbn [verify bind].
  rewrite verify_all_ok. { cbn [bind]. apply verify_all_ok. rewrite <- sd_cells0. eapply Forall_impl; [|exact sd_cell0]. intros a Ha. apply Nat.eqb_eq. destruct a; apply Ha. }
  eapply Forall_impl; [|exact sd_point0]. intros a Ha. apply Nat.eqb_eq. destruct a; apply Ha.
Qed.
