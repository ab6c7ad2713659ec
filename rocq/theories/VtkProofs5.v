(** Proofs for C71 and C72: the cells of the grid, and values at their points. *)
From Coq Require Import Reals String List Arith Bool Lia Lra.
Import ListNotations.
From Verif Require Import Base MeshModel MeshView DofModel DofSpec AssembleModel GeoModel GeoSpec FeModel FeSpec FeToolsModel TransferSpec TransferProofs2 ProlongProofs
  VtkModel VtkSpec VtkProofs VtkProofs2 VtkProofs3 VtkProofs4.

Lemma seq_from : forall a q, seq a q = map (fun k => a + k) (seq 0 q).
Proof. intros a q. revert a. induction q as [|q IH]; intros a; [reflexivity|]. cbn [seq map]. f_equal; [lia|]. rewrite IH, <- seq_shift, map_map. apply map_ext. intros k. lia. Qed.
Lemma rev_seq0 : forall q, rev (seq 0 q) = map (fun i => q - S i) (seq 0 q).
Proof.
  induction q as [|q IH]; [reflexivity|]. rewrite seq_S at 1. rewrite rev_app_distr. cbn [rev app Nat.add]. cbn [seq map]. f_equal; [lia|]. rewrite IH, <- seq_shift, map_map. apply map_ext. intros k. lia.
Qed.
Lemma list_map_nth : forall A (l : list A) d, l = map (fun r => nth r l d) (seq 0 (length l)).
Proof. intros A l d. induction l as [|a l IH]; [reflexivity|]. cbn [length seq map nth]. f_equal. rewrite <- seq_shift, map_map. exact IH. Qed.

Section Cells.
Variable m : mesh.
Hypothesis W : wf_mesh m.
Variable n : nat.
Hypothesis N1 : 1 <= n.
Variable codim : nat.
Hypothesis HC : codim < 2.
Variables off1 off0 : list nat.
Hypothesis OK : off_ok m n codim off1 off0.

Lemma seg_ok : forall s inv, s < length (mv_edges m) -> segment_nodes n off1 s inv = Ok (map (fun k => vidx m n (OnEdge s (if inv then n - S k else S k))) (seq 0 (n - 1))).
Proof.
  intros s inv Hs. destruct OK as (L1 & _ & O1 & _). unfold segment_nodes. cbn [NumAuxNodes]. destruct (le_lt_dec 2 n) as [N2|N2].
  - rewrite (O1 s Hs N2). f_equal. destruct inv.
    + rewrite rev_seq0, map_map. apply map_ext_in. intros k Hk. apply in_seq in Hk. cbn [vidx]. lia.
    + apply map_ext_in. intros k Hk. cbn [vidx]. lia.
  - assert (n = 1) by lia. destruct (nth_error off1 s) eqn:X; [|apply nth_error_None in X; lia]. rewrite H. destruct inv; reflexivity.
Qed.
Lemma side_ok : forall c j flip, wf_cell m c -> j < length (cv_nodes c) ->
  side_nodes n off1 c j flip = Ok (map (fun k => vidx m n (OnEdge (nth j (cv_edges c) 0) (if xorb (nth j (cv_ori c) true) flip then S k else n - S k))) (seq 0 (n - 1))).
Proof.
  intros c j flip WC Hj. destruct (wc_local _ _ WC j Hj) as (e & o & p0 & p1 & A1 & A2 & A3 & _). unfold side_nodes. rewrite A1, A2.
  rewrite seg_ok by (apply nth_error_Some; congruence). rewrite (nth_error_nth _ _ _ A1), (nth_error_nth _ _ _ A2). f_equal. apply map_ext. intros k. destruct o, flip; reflexivity.
Qed.
Lemma side_loc : forall i c j, cv_type c = kTria \/ cv_type c = kQuad -> j < corners (cv_type c) ->
  map (fun r => vidx m n (cell_location n i c r)) (seq (corners (cv_type c) + j * (n - 1)) (n - 1)) =
  map (fun k => vidx m n (OnEdge (nth j (cv_edges c) 0) (if xorb (nth j (cv_ori c) true) (match cv_type c with kQuad => 2 <=? j | _ => false end) then S k else n - S k))) (seq 0 (n - 1)).
Proof.
  intros i c j T Hj. rewrite seq_from, map_map. apply map_ext_in. intros k Hk. apply in_seq in Hk. f_equal. unfold cell_location.
  rewrite (proj2 (Nat.ltb_ge _ (corners (cv_type c)))) by nia. rewrite (proj2 (Nat.ltb_lt _ (corners (cv_type c) + corners (cv_type c) * (n - 1)))) by nia.
  replace (corners (cv_type c) + j * (n - 1) + k - corners (cv_type c)) with (k + j * (n - 1)) by (generalize (j * (n - 1)); intros; lia). rewrite Nat.div_add, Nat.mod_add by lia.
  rewrite Nat.div_small, Nat.mod_small by lia. reflexivity.
Qed.
Lemma corner_loc : forall i c, length (cv_nodes c) = corners (cv_type c) -> cv_nodes c = map (fun r => vidx m n (cell_location n i c r)) (seq 0 (corners (cv_type c))).
Proof.
  intros i c L. rewrite (list_map_nth _ (cv_nodes c) 0) at 1. rewrite L. apply map_ext_in. intros r Hr. apply in_seq in Hr. unfold cell_location. rewrite (proj2 (Nat.ltb_lt _ _)) by lia. reflexivity.
Qed.
Lemma inner_loc : forall i c q, map (fun r => vidx m n (cell_location n i c r)) (seq (corners (cv_type c) + corners (cv_type c) * (n - 1)) q) = map (fun k => vidx m n (InCell i k)) (seq 0 q).
Proof.
  intros i c q. rewrite seq_from, map_map. apply map_ext. intros k. f_equal. unfold cell_location. rewrite (proj2 (Nat.ltb_ge _ (corners (cv_type c)))) by nia. rewrite (proj2 (Nat.ltb_ge _ (corners (cv_type c) + corners (cv_type c) * (n - 1)))) by lia. f_equal. lia.
Qed.
Lemma interior_ok : forall i c, codim = 0 -> nth_error (mv_cells m) i = Some c ->
  match nth_error off0 i with Some o => Ok (map (fun k => o + k) (seq 0 (NumAuxNodes (ent_type m (ECell i)) n))) | None => Assert end =
  Ok (map (fun k => vidx m n (InCell i k)) (seq 0 (vtk_interior (cv_type c) n))).
Proof.
  intros i c CZ Ec. destruct OK as (_ & L0 & _ & O0). assert (Hi : i < length (mv_cells m)) by (apply nth_error_Some; congruence).
  pose proof (shareC_interior m W n N1 i c Ec) as SH. unfold shareC, share in SH. rewrite SH.
  destruct (nth_error off0 i) as [o|] eqn:X; [|apply nth_error_None in X; lia]. f_equal.
  destruct (Nat.eq_dec (vtk_interior (cv_type c) n) 0) as [Z|Z]; [rewrite Z; reflexivity|].
  assert (SK : skip m n (ECell i) = false). { destruct (skip m n (ECell i)) eqn:SK; auto. destruct (le_lt_dec 2 n).
    - pose proof (skip_share m n l (ECell i) SK) as Q. unfold share in Q. lia.
    - assert (n = 1) by lia. destruct (cell_ty m W i c Ec) as [_ [T|T]]; rewrite T, H in Z; cbn in Z; lia. }
  assert (N2 : 2 <= n). { destruct (le_lt_dec 2 n); auto. assert (n = 1) by lia. destruct (cell_ty m W i c Ec) as [_ [T|T]]; rewrite T, H in Z; cbn in Z; lia. }
  rewrite (O0 i Hi CZ N2 SK) in X. injection X as <-. apply map_ext. intros k. reflexivity.
Qed.
Lemma cell_nodes_ok : forall e, written m codim e -> cell_nodes m n off1 off0 e = Ok (map (fun r => vidx m n (ent_location m n e r)) (seq 0 (vtk_size (ent_type m e) n))).
Proof.
  intros [i|i|i] [Ve Ce].
  - cbn in Ce. lia.
  - cbn in Ve. unfold cell_nodes. cbn [ent_type ent_nodes ent_index]. rewrite seg_ok by exact Ve. cbn [bind]. f_equal. rewrite app_nil_r.
    change (vtk_size kSegment n) with (2 + (1 * (n - 1)) + 0). rewrite Nat.add_0_r, Nat.mul_1_l. rewrite seq_app, map_app. cbn [seq map app Nat.add ent_location vidx]. unfold edge_at.
    destruct (nth_error (mv_edges m) i) as [[a b]|] eqn:X; [|apply nth_error_None in X; lia]. rewrite (nth_error_nth _ _ _ X). cbn [fst snd app]. f_equal. f_equal.
    rewrite (seq_from 2), map_map. reflexivity.
  - cbn in Ve. destruct (nth_error (mv_cells m) i) as [c|] eqn:Ec; [|apply nth_error_None in Ec; lia]. destruct (cell_ty m W i c Ec) as [TY T].
    assert (WC := cell_wf_of _ _ _ W Ec). assert (CZ : codim = 0) by (rewrite TY in Ce; destruct T as [T|T]; rewrite T in Ce; cbn in Ce; lia).
    assert (NF : length (cv_nodes c) = corners (cv_type c)) by (destruct (wf_type _ _ WC) as [[-> ->]|[-> ->]]; reflexivity).
    assert (CA : cell_at m i = c) by (unfold cell_at; apply nth_error_nth; exact Ec).
    unfold cell_nodes. cbn [ent_nodes ent_index]. rewrite Ec, (interior_ok i c CZ Ec). rewrite TY, CA.
    transitivity (Ok (map (fun r => vidx m n (cell_location n i c r)) (seq 0 (vtk_size (cv_type c) n)))); [|cbn [ent_location]; rewrite CA; reflexivity].
    assert (SZ : vtk_size (cv_type c) n = corners (cv_type c) + (num_sides (cv_type c) * (n - 1) + vtk_interior (cv_type c) n)) by (unfold vtk_size; lia). rewrite SZ. rewrite seq_app, map_app. cbn [Nat.add]. rewrite <- (corner_loc i c NF).
    assert (SD := fun j flip H => side_ok c j flip WC H). pose proof (side_loc i c) as SL. pose proof (inner_loc i c (vtk_interior (cv_type c) n)) as IL. specialize (SL) with (1 := T).
    destruct T as [T|T]; rewrite T in *; change (corners kTria) with 3 in *; change (corners kQuad) with 4 in *; cbn [num_sides].
    + rewrite !SD by lia. cbn [bind]. f_equal. f_equal. rewrite <- (SL 0), <- (SL 1), <- (SL 2) by lia. rewrite seq_app, map_app, IL. f_equal.
      replace (3 * (n - 1)) with ((n - 1) + ((n - 1) + (n - 1))) by lia. rewrite !seq_app, !map_app. replace (3 + 0 * (n - 1)) with 3 by lia. replace (3 + 1 * (n - 1)) with (3 + (n - 1)) by lia. replace (3 + 2 * (n - 1)) with (3 + (n - 1) + (n - 1)) by lia. reflexivity.
    + rewrite !SD by lia. cbn [bind]. f_equal. f_equal.
      pose proof (SL 0 ltac:(lia)) as S0. pose proof (SL 1 ltac:(lia)) as S1. pose proof (SL 2 ltac:(lia)) as S2. pose proof (SL 3 ltac:(lia)) as S3. cbn [Nat.leb] in S0, S1, S2, S3.
      rewrite <- S0, <- S1, <- S2, <- S3. rewrite seq_app, map_app, IL. f_equal.
      replace (4 * (n - 1)) with ((n - 1) + ((n - 1) + ((n - 1) + (n - 1)))) by lia. rewrite !seq_app, !map_app. replace (4 + 0 * (n - 1)) with 4 by lia. replace (4 + 1 * (n - 1)) with (4 + (n - 1)) by lia. replace (4 + 2 * (n - 1)) with (4 + (n - 1) + (n - 1)) by lia.
      replace (4 + 3 * (n - 1)) with (4 + (n - 1) + (n - 1) + (n - 1)) by lia. reflexivity.
Qed.
Lemma type_ok : forall el, el <> kPoint -> type_of_cell n el = Ok (vtk_type el n).
Proof. intros el H. unfold type_of_cell, vtk_type. destruct el; [tauto| | |]; destruct (n =? 1); reflexivity. Qed.
Lemma cell_loop_ok : forall es cells types, (forall e, In e es -> written m codim e /\ ent_index e < length cells) -> length types = length cells -> NoDup (map ent_index es) ->
  exists cells' types', cell_loop m n off1 off0 es cells types = Ok (cells', types') /\ length cells' = length cells /\ length types' = length cells /\
    (forall e, In e es -> nth_error cells' (ent_index e) = Some (map (fun r => vidx m n (ent_location m n e r)) (seq 0 (vtk_size (ent_type m e) n))) /\
       nth_error types' (ent_index e) = Some (vtk_type (ent_type m e) n)) /\
    (forall p, ~ In p (map ent_index es) -> nth_error cells' p = nth_error cells p /\ nth_error types' p = nth_error types p).
Proof.
  induction es as [|e es IH]; intros cells types HE LT ND; cbn [cell_loop].
  - exists cells, types. split; auto. split; auto. split; auto. split; [intros e []|auto].
  - destruct (HE e (or_introl eq_refl)) as [We Le]. rewrite cell_nodes_ok by exact We. cbn [bind]. rewrite type_ok. 2: { destruct We as [_ Ce]. destruct (ent_type m e); try discriminate. cbn in Ce. lia. }
    cbn [bind]. rewrite (proj2 (Nat.ltb_lt _ _) Le). cbn [lf_assert bind]. cbn [map] in ND. inversion ND as [|x l NI ND' Q1]; subst.
    match goal with |- exists _ _, cell_loop _ _ _ _ _ ?a ?b = _ /\ _ => destruct (IH a b) as (cs & ts & E1 & L1 & L2 & R1 & R2) end.
    { intros e' H. rewrite upd_length. apply HE. right; auto. } { rewrite !upd_length. exact LT. } { exact ND'. }
    exists cs, ts. rewrite upd_length in *. split; [exact E1|]. split; auto. split; auto. split.
    + intros e' [<-|H]; [|auto]. destruct (R2 _ NI) as [-> ->]. rewrite !nth_error_upd_eq by lia. auto.
    + intros p Hp. cbn [map In] in Hp. destruct (R2 p) as [-> ->]; [tauto|]. rewrite !nth_error_upd_neq by tauto. auto.
Qed.
Definition vtk_cells (cells : list (list nat)) : Prop :=
  forall e, written m codim e -> nth_error cells (ent_index e) = Some (map (fun r => vidx m n (ent_location m n e r)) (seq 0 (vtk_size (ent_type m e) n))).
Lemma written_entities : forall e, written m codim e <-> In e (entities m codim).
Proof.
  intros e. unfold written, entities. split.
  - intros [Ve Ce]. apply in_map_iff. destruct codim as [|[|q]]; [| |lia].
    + destruct e as [i|i|i]; cbn in Ce; try lia. exists i. split; auto. apply in_seq. cbn in Ve |- *. lia.
    + destruct e as [i|i|i]; cbn in Ce; try lia. { exists i. split; auto. apply in_seq. cbn in Ve |- *. lia. }
      cbn in Ve. destruct (cells_below m n N1 i Ve) as (c & Ec). destruct (cell_ty m W i c Ec) as [TY T]. cbn in TY. rewrite TY in Ce. destruct T as [T|T]; rewrite T in Ce; cbn in Ce; lia.
  - intros H. apply in_map_iff in H. destruct H as (i & <- & Hi). apply in_seq in Hi. destruct codim as [|[|q]]; [| |lia]; cbn in Hi.
    + destruct (cells_below m n N1 i ltac:(lia)) as (c & Ec). destruct (cell_ty m W i c Ec) as [TY T]. split; [cbn; lia|]. rewrite TY. destruct T as [-> | ->]; reflexivity.
    + split; [cbn; lia|reflexivity].
Qed.
Lemma cells_ok : exists cells types, cell_loop m n off1 off0 (entities m codim) (repeat [] (mv_count m codim)) (repeat NoType (mv_count m codim)) = Ok (cells, types) /\
  length cells = mv_count m codim /\ length types = mv_count m codim /\ vtk_cells cells /\ (forall e, written m codim e -> nth_error types (ent_index e) = Some (vtk_type (ent_type m e) n)).
Proof.
  destruct (cell_loop_ok (entities m codim) (repeat [] (mv_count m codim)) (repeat NoType (mv_count m codim))) as (cells & types & E1 & L1 & L2 & R1 & _).
  - intros e H. split; [apply written_entities; exact H|]. rewrite repeat_length. apply in_map_iff in H. destruct H as (i & <- & Hi). apply in_seq in Hi. destruct codim as [|[|q]]; cbn in *; lia.
  - rewrite !repeat_length. reflexivity.
  - unfold entities. rewrite ent_index_seq by (intros; destruct codim as [|[|q]]; reflexivity). apply seq_NoDup.
  - rewrite repeat_length in L1, L2. exists cells, types. split; auto. split; auto. split; auto. split.
    + intros e H. apply R1, written_entities. exact H.
    + intros e H. apply R1, written_entities. exact H.
Qed.
End Cells.

(** *** Values *)
Section Values.
Local Open Scope R_scope.
Lemma frac_one : forall n, (1 <= n)%nat -> INR n / INR n = 1.
Proof. intros n H. assert (0 < INR n) by (apply lt_0_INR; lia). field. lra. Qed.
Lemma corner_position : forall el n r, (1 <= n)%nat -> el = kTria \/ el = kQuad -> (r < corners el)%nat -> vtk_position el n r = ref_node el r.
Proof.
  intros el n r H [-> | ->] Hr; unfold vtk_position, quad_lattice, ref_node.
  - cbn [tri_lattice]. rewrite (proj2 (Nat.eqb_neq n 0)) by lia. change (corners kTria) with 3%nat in Hr. rewrite (proj2 (Nat.ltb_lt _ _) Hr).
    destruct r as [|[|[|r]]]; [| | |lia]; cbn [nth fst snd ref_nodes Nat.add]; change (INR 0) with 0; rewrite ?frac_one by exact H; unfold Rdiv; rewrite ?Rmult_0_l; reflexivity.
  - change (corners kQuad) with 4%nat in Hr. rewrite (proj2 (Nat.ltb_lt _ _) Hr).
    destruct r as [|[|[|[|r]]]]; [| | | |lia]; cbn [nth fst snd ref_nodes Nat.add]; change (INR 0) with 0; rewrite ?frac_one by exact H; unfold Rdiv; rewrite ?Rmult_0_l; reflexivity.
Qed.
Ltac vec2 := match goal with |- [?a; ?b] = [?c; ?d] => replace c with a by lra; replace d with b by lra; reflexivity end.
Lemma side_position : forall el n j k, el = kTria \/ el = kQuad -> (j < corners el)%nat -> (0 < k < n)%nat ->
  vtk_position el n (corners el + j * (n - 1) + (k - 1)) = on_edge el j (if match el with kQuad => (2 <=? j)%nat | _ => false end then 1 - INR k / INR n else INR k / INR n).
Proof.
  intros el n j k T Hj Hk. assert (P : 0 < INR n) by (apply lt_0_INR; lia).
  assert (DIV : forall c, (c + j * (n - 1) + (k - 1) - c = (k - 1) + j * (n - 1))%nat) by (intros; generalize (j * (n - 1))%nat; intros; lia).
  assert (D1 : (((k - 1) + j * (n - 1)) / (n - 1) = j)%nat) by (rewrite Nat.div_add, Nat.div_small by lia; lia).
  assert (D2 : (((k - 1) + j * (n - 1)) mod (n - 1) = (k - 1))%nat) by (rewrite Nat.mod_add, Nat.mod_small by lia; lia).
  assert (SK : S (k - 1) = k) by lia. assert (NK : INR (n - k) / INR n = 1 - INR k / INR n) by (rewrite minus_INR by lia; field; lra).
  assert (NN : INR n / INR n = 1) by (field; lra). assert (ZN : INR 0 / INR n = 0) by (change (INR 0) with 0; field; lra).
  destruct T as [-> | ->]; unfold vtk_position, quad_lattice.
  - change (corners kTria) with 3%nat in *. cbn [tri_lattice]. rewrite (proj2 (Nat.eqb_neq n 0)) by lia. rewrite (proj2 (Nat.ltb_ge _ 3)) by nia. rewrite (proj2 (Nat.ltb_lt _ _)) by nia.
    rewrite DIV, D1, D2, SK. cbv zeta. destruct j as [|[|[|j]]]; [| | |lia]; cbn [nth fst snd Nat.add]; unfold on_edge, between, ref_node; cbn [ref_nodes nth combine map fst snd Nat.modulo Nat.divmod num_nodes Nat.sub Nat.add]; rewrite ?NK, ?NN, ?ZN; vec2.
  - change (corners kQuad) with 4%nat in *. rewrite (proj2 (Nat.ltb_ge _ 4)) by nia. rewrite (proj2 (Nat.ltb_lt _ _)) by nia.
    rewrite DIV, D1, D2, SK. cbv zeta. destruct j as [|[|[|[|j]]]]; [| | | |lia]; cbn [nth fst snd Nat.add Nat.leb]; unfold on_edge, between, ref_node; cbn [ref_nodes nth combine map fst snd Nat.modulo Nat.divmod num_nodes Nat.sub Nat.add]; rewrite ?NK, ?NN, ?ZN; vec2.
Qed.
Lemma samples_ok : forall A m n codim cells data (u : ent -> list R -> res A), wf_mesh m -> (1 <= n)%nat -> (codim < 2)%nat -> agreeing m codim u ->
  vtk_cells m n codim cells -> filled m n codim u data -> samples m codim n cells data u.
Proof.
  intros A m n codim cells data u W N1 HC AG VC [LD FL] e r We Hr ST. exists (map (fun r => vidx m n (ent_location m n e r)) (seq 0 (vtk_size (ent_type m e) n))), (vidx m n (ent_location m n e r)).
  assert (G : exists v, u e (vtk_position (ent_type m e) n r) = Ok v /\ nth_error data (vidx m n (ent_location m n e r)) = Some (Some v)).
  2: { destruct G as (v & G1 & G2). exists v. split; [apply VC; exact We|]. split; [|auto]. erewrite map_nth_error; [reflexivity|]. rewrite (nth_error_nth' _ 0%nat) by (rewrite seq_length; exact Hr). rewrite seq_nth by exact Hr. reflexivity. }
  assert (P : 0 < INR n) by (apply lt_0_INR; lia). destruct We as [Ve Ce]. destruct e as [i|i|i]; [cbn in Ce; lia| |].
  - cbn in Ve. unfold vtk_size in Hr. cbn [ent_type corners num_nodes num_sides vtk_interior] in Hr. destruct (nth_error (mv_edges m) i) as [[a b]|] eqn:X; [|apply nth_error_None in X; lia].
    destruct (ag_ends _ _ _ AG i a b X) as [A1 A2]. destruct (wm_edges _ W _ _ _ X) as (_ & Va & Vb). cbn [ent_type vtk_position ent_location]. unfold edge_at. rewrite (nth_error_nth _ _ _ X). cbn [fst snd].
    destruct r as [|[|k]]; cbn [line_lattice].
    + change (INR 0) with 0. replace (0 / INR n) with 0 by (field; lra). rewrite A1. apply (FL (AtNode a)). exact Va.
    + rewrite frac_one by exact N1. rewrite A2. apply (FL (AtNode b)). exact Vb.
    + apply (FL (OnEdge i (S k))). cbn. lia.
  - cbn in Ve. destruct (nth_error (mv_cells m) i) as [c|] eqn:Ec; [|apply nth_error_None in Ec; lia]. destruct (cell_ty m W i c Ec) as [TY T].
    assert (WC := cell_wf_of _ _ _ W Ec). assert (CZ : codim = 0%nat) by (rewrite TY in Ce; destruct T as [T|T]; rewrite T in Ce; cbn in Ce; lia).
    assert (NF : length (cv_nodes c) = corners (cv_type c)) by (destruct (wf_type _ _ WC) as [[-> ->]|[-> ->]]; reflexivity).
    cbn [ent_location]. replace (cell_at m i) with c by (unfold cell_at; symmetry; apply nth_error_nth; exact Ec). rewrite TY in *. unfold cell_location.
    assert (NS : num_sides (cv_type c) = corners (cv_type c)) by (destruct T as [-> | ->]; reflexivity). unfold vtk_size in Hr. rewrite NS in Hr.
    destruct (r <? corners (cv_type c))%nat eqn:R1; [apply Nat.ltb_lt in R1|apply Nat.ltb_ge in R1].
    + rewrite corner_position by auto. assert (X : nth_error (cv_nodes c) r = Some (nth r (cv_nodes c) 0%nat)) by (apply nth_error_nth'; lia).
      rewrite (ag_node _ _ _ AG i c r _ CZ Ec X). apply (FL (AtNode (nth r (cv_nodes c) 0%nat))). pose proof (wc_nodes _ _ WC) as WN. rewrite Forall_forall in WN. apply WN. eapply nth_error_In; eauto.
    + destruct (r <? corners (cv_type c) + corners (cv_type c) * (n - 1))%nat eqn:R2; [apply Nat.ltb_lt in R2|apply Nat.ltb_ge in R2].
      * assert (N2 : (n - 1 <> 0)%nat) by nia. set (q := (r - corners (cv_type c))%nat) in *. pose proof (Nat.div_mod q (n - 1) N2) as DM. pose proof (Nat.mod_upper_bound q (n - 1) N2) as MB.
        assert (DB : (q / (n - 1) < corners (cv_type c))%nat) by (apply Nat.div_lt_upper_bound; [exact N2|]; unfold q; lia).
        set (j := (q / (n - 1))%nat) in *. set (k := (q mod (n - 1))%nat) in *.
        replace r with (corners (cv_type c) + j * (n - 1) + (S k - 1))%nat by (unfold q in DM; lia). rewrite side_position by (auto; lia).
        assert (Hj : (j < length (cv_nodes c))%nat) by lia.
        destruct (wc_local _ _ WC j Hj) as (e & o & p0 & p1 & A1 & A2 & A3 & _). rewrite (nth_error_nth _ _ _ A1), (nth_error_nth _ _ _ A2).
        set (back := match cv_type c with kQuad => (2 <=? j)%nat | _ => false end).
        assert (VE : (e < length (mv_edges m))%nat) by (apply nth_error_Some; congruence).
        assert (EP : on_edge (cv_type c) j (if back then 1 - INR (S k) / INR n else INR (S k) / INR n) = edge_point (cv_type c) j o (INR (if xorb o back then S k else n - S k) / INR n)).
        { unfold edge_point. f_equal. assert (NK : INR (n - S k) / INR n = 1 - INR (S k) / INR n) by (rewrite minus_INR by lia; field; lra). destruct o, back; cbn [xorb]; rewrite ?NK; lra. }
        rewrite EP. rewrite (ag_edge _ _ _ AG i c j e o _ CZ Ec A1 A2) by (apply frac_range; destruct (xorb o back); lia).
        apply (FL (OnEdge e (if xorb o back then S k else n - S k)%nat)). split; [exact VE|]. destruct (xorb o back); lia.
      * set (k := (r - (corners (cv_type c) + corners (cv_type c) * (n - 1)))%nat). assert (Hk : (k < vtk_interior (cv_type c) n)%nat) by (unfold k; lia).
        assert (N2 : (2 <= n)%nat). { destruct (le_lt_dec 2 n); auto. assert (n = 1%nat) by lia. exfalso. destruct T as [T|T]; rewrite T, H in Hk; cbn in Hk; lia. }
        destruct (FL (InCell i k)) as (v & F1 & F2). { split; [exact CZ|]. exists c. auto. }
        exists v. split; [|exact F2]. rewrite <- F1. cbn [loc_ent loc_point]. f_equal. unfold aux_point. rewrite TY.
        destruct (aux_length m n N2 (ECell i)) as (l & AL & LL). { rewrite TY. destruct T as [-> | ->]; discriminate. } rewrite TY in AL. rewrite AL.
        replace r with (corners (cv_type c) + corners (cv_type c) * (n - 1) + k)%nat in ST |- * by (unfold k; lia). symmetry. apply nth_error_nth. apply interior_nth; auto.
Qed.
End Values.
