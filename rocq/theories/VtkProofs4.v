(** Proofs for C71: the constructor. *)
From Coq Require Import Reals String List Arith Bool Lia Lra.
Import ListNotations.
From Verif Require Import Base MeshModel MeshView DofModel DofSpec AssembleModel GeoModel GeoSpec FeModel FeSpec FeToolsModel TransferSpec TransferProofs2 ProlongProofs
  VtkModel VtkSpec VtkProofs VtkProofs2 VtkProofs3.

Lemma map_seq_split : forall (G : nat -> ent) N i, i < N -> map G (seq 0 N) = map G (seq 0 i) ++ G i :: map G (seq (S i) (N - S i)).
Proof.
  intros G N i H. replace N with (i + S (N - S i)) at 1 by lia. rewrite seq_app, map_app. reflexivity.
Qed.
Lemma map_seq_elem : forall (G : nat -> ent) N a e b, (forall i j, G i = G j -> i = j) -> map G (seq 0 N) = a ++ e :: b -> exists i, i < N /\ e = G i /\ a = map G (seq 0 i).
Proof.
  intros G N a e b J E. assert (L : length a < N). { apply (f_equal (@length _)) in E. rewrite map_length, seq_length, app_length in E. cbn in E. lia. }
  exists (length a). split; auto. rewrite (map_seq_split G N (length a) L) in E.
  assert (X : length (map G (seq 0 (length a))) = length a) by (rewrite map_length, seq_length; reflexivity).
  apply (f_equal (fun l => (firstn (length a) l, nth_error l (length a)))) in E. injection E as E1 E2.
  rewrite !firstn_app, X, Nat.sub_diag, firstn_all in E1. rewrite <- X in E1 at 1. rewrite firstn_all in E1. cbn in E1. rewrite !app_nil_r in E1.
  rewrite !nth_error_app2 in E2 by lia. rewrite X, Nat.sub_diag in E2. cbn in E2. injection E2 as E2. split; auto.
Qed.

Section Points.
Variable m : mesh.
Hypothesis W : wf_mesh m.
Variable n : nat.
Hypothesis N1 : 1 <= n.
Let V := mv_nodes m.
Let E := length (mv_edges m).
Let C := length (mv_cells m).
Definition shareE (e : nat) : nat := NumAuxNodes kSegment n.
Definition shareC (i : nat) : nat := share m n (ECell i).
Definition eoff (e : nat) : nat := mv_nodes m + before shareE e.
Definition coff (i : nat) : nat := eoff (length (mv_edges m)) + before shareC i.
Definition vidx (l : location) : nat :=
  match l with AtNode i => i | OnEdge e k => eoff e + (k - 1) | InCell i k => coff i + k end.
Lemma total_edges : forall i, total m n (map EEdge (seq 0 i)) = before shareE i.
Proof. intros i. unfold total, before. rewrite map_map. reflexivity. Qed.
Lemma total_cells : forall i, total m n (map ECell (seq 0 i)) = before shareC i.
Proof. intros i. unfold total, before. rewrite map_map. reflexivity. Qed.
Lemma cell_ty : forall i c, nth_error (mv_cells m) i = Some c -> ent_type m (ECell i) = cv_type c /\ (cv_type c = kTria \/ cv_type c = kQuad).
Proof.
  intros i c H. split; [cbn; unfold cell_at; rewrite (nth_error_nth _ _ _ H); reflexivity|]. apply (tq m), (cell_wf_of _ _ _ W H).
Qed.
Lemma shareC_interior : forall i c, nth_error (mv_cells m) i = Some c -> shareC i = vtk_interior (cv_type c) n.
Proof. intros i c H. destruct (cell_ty i c H) as [A B]. unfold shareC, share. rewrite A. apply interior_count; auto. Qed.
Lemma all_cells : before shareC C = list_sum (map (fun c => NumAuxNodes (cv_type c) n) (mv_cells m)).
Proof.
  unfold before, C, shareC, share. cbn [ent_type]. unfold cell_at. f_equal. induction (mv_cells m) as [|c l IH]; [reflexivity|]. cbn [length seq map nth]. f_equal.
  rewrite <- seq_shift, map_map. exact IH.
Qed.
Lemma num_points_total : forall codim, codim < 2 -> num_points m codim n = if codim =? 0 then coff C else eoff E.
Proof.
  intros codim H. assert (SE : eoff E = V + NumAuxNodes kSegment n * E).
  { unfold eoff. f_equal. clearbody E. induction E as [|k IH]; [cbn; lia|]. rewrite before_S, IH. unfold shareE. lia. }
  destruct codim as [|[|codim]]; [| |lia]; cbn [Nat.eqb].
  - unfold coff. fold E. rewrite all_cells, SE. unfold num_points. cbn [fold_left codim_of Nat.sub Nat.ltb Nat.leb mv_count count_type]. fold V E.
    assert (CT : forall l, Forall (wf_cell m) l -> list_sum (map (fun c => NumAuxNodes (cv_type c) n) l) =
       NumAuxNodes kTria n * length (filter (fun c => refel_eqb (cv_type c) kTria) l) + NumAuxNodes kQuad n * length (filter (fun c => refel_eqb (cv_type c) kQuad) l)).
    { induction 1 as [|c l WC FL IH]; [cbn [map filter length list_sum fold_right]; lia|]. cbn [map filter]. change (list_sum (NumAuxNodes (cv_type c) n :: map (fun c0 => NumAuxNodes (cv_type c0) n) l)) with (NumAuxNodes (cv_type c) n + list_sum (map (fun c0 => NumAuxNodes (cv_type c0) n) l)). rewrite IH. destruct (tq _ _ WC) as [-> | ->]; cbn [refel_eqb length]; lia. }
    rewrite (CT _ (wm_cells _ W)). lia.
  - unfold num_points. cbn [fold_left codim_of Nat.sub Nat.ltb Nat.leb mv_count count_type]. fold V E. rewrite SE. reflexivity.
Qed.
Lemma vidx_numbering : forall codim, codim < 2 -> numbering m codim n (num_points m codim n) vidx.
Proof.
  intros codim H. rewrite num_points_total by exact H. split.
  - intros [i|e k|i k] VL; cbn in VL |- *.
    + fold V in VL. unfold coff, eoff. destruct (codim =? 0); fold V; lia.
    + destruct VL as [He Hk]. assert (X : eoff e + (k - 1) < eoff E). { unfold eoff. pose proof (before_lt shareE e E He). unfold shareE in H0 at 2. cbn [NumAuxNodes] in H0. lia. }
      unfold coff. fold E. destruct (codim =? 0); lia.
    + destruct VL as (-> & c & Ec & Hk). cbn [Nat.eqb]. rewrite <- (shareC_interior i c Ec) in Hk. assert (Hi : i < C) by (apply nth_error_Some; congruence).
      unfold coff. pose proof (before_lt shareC i C Hi). lia.
  - assert (NE : forall i e k, i < V -> e < E -> 0 < k < n -> i <> eoff e + (k - 1)). { intros i e k A B D. unfold eoff. fold V. lia. }
    assert (NC : forall i j k, i < V -> i <> coff j + k). { intros i j k A. unfold coff, eoff. fold V. lia. }
    assert (EC : forall e k i q, e < E -> 0 < k < n -> eoff e + (k - 1) <> coff i + q).
    { intros e k i q A B. unfold coff, eoff. pose proof (before_lt shareE e E A). unfold shareE in H0 at 2. cbn [NumAuxNodes] in H0. fold E. lia. }
    intros [i|e k|i k] [i'|e' k'|i' k'] VL VL' Q; cbn in VL, VL', Q.
    + congruence.
    + exfalso. apply (NE i e' k'); tauto.
    + exfalso. apply (NC i i' k'); tauto.
    + exfalso. apply (NE i' e k); try tauto. congruence.
    + destruct (before_inj shareE e (k - 1) e' (k' - 1)) as [-> Q2]; [unfold shareE; cbn; lia|unfold shareE; cbn; lia|unfold eoff in Q; lia|]. f_equal. lia.
    + exfalso. apply (EC e k i' k'); tauto.
    + exfalso. apply (NC i' i k); try tauto. congruence.
    + exfalso. apply (EC e' k' i k); try tauto. congruence.
    + destruct VL as (_ & c & Ec & Hk). destruct VL' as (_ & c' & Ec' & Hk'). rewrite <- (shareC_interior _ _ Ec) in Hk. rewrite <- (shareC_interior _ _ Ec') in Hk'.
      destruct (before_inj shareC i k i' k') as [-> ->]; auto. unfold coff in Q. lia.
  - intros p Hp. destruct (le_lt_dec V p) as [G|G].
    2: { exists (AtNode p). split; [exact G|reflexivity]. }
    destruct (le_lt_dec (eoff E) p) as [G2|G2].
    + destruct (codim =? 0) eqn:CZ; [|lia]. apply Nat.eqb_eq in CZ. unfold coff in Hp. fold E in Hp. destruct (before_onto shareC C (p - eoff E)) as (i & k & Hi & Hk & Ep); [lia|].
      destruct (nth_error (mv_cells m) i) as [c|] eqn:Ec; [|apply nth_error_None in Ec; unfold C in Hi; lia].
      exists (InCell i k). split; [split; [exact CZ|]; exists c; split; auto; rewrite <- (shareC_interior _ _ Ec); exact Hk|]. cbn. unfold coff. fold E. lia.
    + unfold eoff in G2. fold V in G2. destruct (before_onto shareE E (p - V)) as (e & k & He & Hk & Ep); [lia|]. unfold shareE in Hk. cbn in Hk.
      exists (OnEdge e (S k)). split; [cbn; fold E; lia|]. cbn. unfold eoff. fold V. lia.
Qed.

(** Values at all points. *)
Definition aux_point (el : refel) (k : nat) : list R := match aux_nodes el n with Ok l => nth k l [] | _ => [] end.
Definition loc_ent (l : location) : ent := match l with AtNode i => ENode i | OnEdge e _ => EEdge e | InCell i _ => ECell i end.
Definition loc_point (l : location) : list R :=
  match l with AtNode _ => [] | OnEdge _ k => [(INR k / INR n)%R] | InCell i k => aux_point (ent_type m (ECell i)) k end.
Definition filled {A} (codim : nat) (val : ent -> list R -> res A) (r : list (option A)) : Prop :=
  length r = num_points m codim n /\ forall l, valid_loc m codim n l -> exists v, val (loc_ent l) (loc_point l) = Ok v /\ nth_error r (vidx l) = Some (Some v).
Definition off_ok (codim : nat) (off1 off0 : list nat) : Prop :=
  length off1 = E /\ length off0 = C /\
  (forall e, e < E -> 2 <= n -> nth_error off1 e = Some (eoff e)) /\
  (forall i, i < C -> codim = 0 -> 2 <= n -> skip m n (ECell i) = false -> nth_error off0 i = Some (coff i)).
Lemma stored_edges : forall A (val : ent -> list R -> res A) r, 2 <= n -> stored m n val (entities m 1) V r ->
  forall e k, e < E -> 0 < k < n -> exists v, val (EEdge e) [(INR k / INR n)%R] = Ok v /\ nth_error r (eoff e + (k - 1)) = Some (Some v).
Proof.
  intros A val r N2 ST e k He Hk. destruct (ST (map EEdge (seq 0 e)) (EEdge e) (map EEdge (seq (S e) (E - S e))) (k - 1) (map (fun k => [(INR (S k) / INR n)%R]) (seq 0 (n - 1))) [(INR k / INR n)%R]) as (v & Ev & Nv).
  - apply (map_seq_split EEdge). exact He.
  - apply aux_segment. exact N2.
  - erewrite map_nth_error; [|rewrite (nth_error_nth' _ 0) by (rewrite seq_length; lia); rewrite seq_nth by lia; reflexivity]. cbn [Nat.add]. replace (S (k - 1)) with k by lia. reflexivity.
  - exists v. split; auto. rewrite total_edges in Nv. exact Nv.
Qed.
Lemma stored_cells : forall A (val : ent -> list R -> res A) r, 2 <= n -> stored m n val (entities m 0) (eoff E) r ->
  forall i k c, nth_error (mv_cells m) i = Some c -> k < vtk_interior (cv_type c) n -> exists v, val (ECell i) (aux_point (ent_type m (ECell i)) k) = Ok v /\ nth_error r (coff i + k) = Some (Some v).
Proof.
  intros A val r N2 ST i k c Ec Hk. destruct (cell_ty i c Ec) as [TY TQ].
  destruct (aux_length m n N2 (ECell i)) as (l & AL & LL). { rewrite TY. destruct TQ; congruence. }
  assert (SH : share m n (ECell i) = vtk_interior (cv_type c) n) by apply (shareC_interior i c Ec).
  destruct (ST (map ECell (seq 0 i)) (ECell i) (map ECell (seq (S i) (C - S i))) k l (nth k l [])) as (v & Ev & Nv).
  - apply (map_seq_split ECell). apply nth_error_Some. congruence.
  - exact AL.
  - apply nth_error_nth'. lia.
  - exists v. unfold aux_point. rewrite AL. split; auto. rewrite total_cells in Nv. exact Nv.
Qed.

Definition has_values {A} (codim : nat) (val : ent -> list R -> res A) : Prop :=
  forall e x, valid m e -> codim <= codim_of (ent_type m e) -> in_ref (ent_type m e) x -> exists v, val e x = Ok v.
Lemma ent_index_seq : forall G N, (forall i, ent_index (G i) = i) -> map ent_index (map G (seq 0 N)) = seq 0 N.
Proof. intros G N H. rewrite map_map. transitivity (map (fun i : nat => i) (seq 0 N)); [apply map_ext; auto|apply map_id]. Qed.
Lemma nodes_written : forall A codim (val : ent -> list R -> res A) N, codim < 2 -> has_values codim val -> V <= N -> exists r, node_loop (fun e => val e []) (entities m 2) (repeat None N) = Ok r /\
  length r = N /\ (forall i, i < V -> exists v, val (ENode i) [] = Ok v /\ nth_error r i = Some (Some v)).
Proof.
  intros A codim val N HC HV LN. destruct (node_loop_ok A (fun e => val e []) (entities m 2) (repeat None N)) as (r & Er & Lr & R1 & R2).
  - intros e He. apply in_map_iff in He. destruct He as (i & <- & Hi). apply in_seq in Hi. apply HV; [cbn; fold V; cbn in Hi; fold V in Hi; lia|cbn; lia|exact I].
  - intros e He. rewrite repeat_length. apply in_map_iff in He. destruct He as (i & <- & Hi). apply in_seq in Hi. cbn in Hi |- *. fold V in Hi. lia.
  - unfold entities. rewrite ent_index_seq by reflexivity. apply seq_NoDup.
  - exists r. rewrite repeat_length in Lr. split; auto. split; auto. intros i Hi. apply (R1 (ENode i)). apply in_map_iff. exists i. split; auto. apply in_seq. cbn. fold V. lia.
Qed.
Lemma cells_below : forall i, i < C -> exists c, nth_error (mv_cells m) i = Some c.
Proof. intros i H. destruct (nth_error (mv_cells m) i) as [c|] eqn:X; eauto. apply nth_error_None in X. unfold C in H. lia. Qed.

(** The points of the grid. *)
Lemma grid_points : forall geom d cast codim, codim < 2 -> has_values codim (point3 geom d cast) ->
  exists r0 r off1 off0, node_loop (fun e => point3 geom d cast e []) (entities m 2) (repeat None (num_points m codim n)) = Ok r0 /\
    insert_aux m geom d cast codim n r0 = Ok (off1, off0, r) /\ filled codim (point3 geom d cast) r /\ off_ok codim off1 off0.
Proof.
  intros geom d cast codim HC HV. set (val := point3 geom d cast) in *.
  destruct (nodes_written _ codim val (num_points m codim n) HC HV) as (r0 & E0 & L0 & R0).
  { rewrite num_points_total by exact HC. unfold coff, eoff. fold V. destruct (codim =? 0); lia. }
  exists r0. unfold insert_aux. change (mv_count m 2) with V. destruct (1 <? n) eqn:GN.
  2: { apply Nat.ltb_ge in GN. assert (n = 1) by lia. exists r0. eexists. eexists. split; [exact E0|]. split; [reflexivity|]. split.
       - split; auto. intros [i|e k|i k] VL; cbn in VL; [|lia|].
         + apply R0. exact VL.
         + destruct VL as (_ & c & Ec & Hk). destruct (cell_ty _ _ Ec) as [_ [T|T]]; rewrite T, H in Hk; cbn in Hk; lia.
       - split; [apply repeat_length|]. split; [apply repeat_length|]. split; intros; lia. }
  apply Nat.ltb_lt in GN. assert (N2 : 2 <= n) by lia.
  pose proof (num_points_total codim HC) as NP.
  destruct (aux_loop_ok m n N2 geom d cast (entities m 1) V (repeat 0 (mv_count m 1)) r0) as (off1 & r1 & A1 & L1 & LO1 & ST1 & OU1 & _ & O1).
  { intros e He. apply in_map_iff in He. destruct He as (i & <- & Hi). apply in_seq in Hi. split; [discriminate|]. rewrite repeat_length. cbn in Hi |- *. lia. }
  { unfold entities. rewrite ent_index_seq by reflexivity. apply seq_NoDup. }
  { intros e l x He AL Hx. apply in_map_iff in He. destruct He as (i & <- & Hi). apply in_seq in Hi. apply HV; [cbn; cbn in Hi; lia|cbn; lia|eapply aux_in_ref; eauto]. }
  { change (entities m 1) with (map EEdge (seq 0 E)). rewrite total_edges, L0, NP. unfold coff, eoff. fold V E. destruct (codim =? 0); lia. }
  rewrite A1. cbn [bind]. change (entities m 1) with (map EEdge (seq 0 E)) in *. rewrite total_edges in *. change (V + before shareE E) with (eoff E) in *.
  rewrite repeat_length in LO1.
  assert (OE : forall e, e < E -> nth_error off1 e = Some (eoff e)).
  { intros e He. assert (X := O1 _ _ _ (map_seq_split EEdge E e He) eq_refl). rewrite total_edges in X. exact X. }
  destruct (codim =? 0) eqn:CZ.
  - apply Nat.eqb_eq in CZ. subst codim.
    destruct (aux_loop_ok m n N2 geom d cast (entities m 0) (eoff E) (repeat 0 (mv_count m 0)) r1) as (off0 & r & A2 & L2 & LO2 & ST2 & OU2 & _ & O2).
    { intros e He. apply in_map_iff in He. destruct He as (i & <- & Hi). apply in_seq in Hi. rewrite repeat_length. split; [|cbn in Hi |- *; lia].
      destruct (cells_below i) as (c & Ec); [cbn in Hi; fold C in Hi; lia|]. destruct (cell_ty i c Ec) as [-> [-> | ->]]; discriminate. }
    { unfold entities. rewrite ent_index_seq by reflexivity. apply seq_NoDup. }
    { intros e l x He AL Hx. apply in_map_iff in He. destruct He as (i & <- & Hi). apply in_seq in Hi. apply HV; [cbn; cbn in Hi; lia|lia|eapply aux_in_ref; eauto]. }
    { change (entities m 0) with (map ECell (seq 0 C)). rewrite total_cells, L1, L0, NP. unfold coff. fold E. lia. }
    change (entities m 0) with (map ECell (seq 0 C)) in *. rewrite total_cells in *. change (eoff E + before shareC C) with (coff C) in *. rewrite A2. cbn [bind]. rewrite repeat_length in LO2.
    exists r, off1, off0. split; [exact E0|]. split; [reflexivity|]. split.
    + split; [lia|]. intros [i|e k|i k] VL; cbn in VL.
      * destruct (R0 i VL) as (v & V1 & V2). exists v. split; auto. cbn. fold V in VL. rewrite OU2 by (left; unfold eoff; fold V; lia). rewrite OU1 by (left; exact VL). exact V2.
      * destruct VL as [He Hk]. destruct (stored_edges _ val r1 N2 ST1 e k He Hk) as (v & V1 & V2). exists v. split; auto. cbn. rewrite OU2; [exact V2|]. left.
        unfold eoff. pose proof (before_lt shareE e E He) as B. unfold shareE in B at 2. cbn [NumAuxNodes] in B. lia.
      * destruct VL as (_ & c & Ec & Hk). exact (stored_cells _ val r N2 ST2 i k c Ec Hk).
    + split; [exact LO1|]. split; [exact LO2|]. split; [auto|]. intros i Hi _ _ SK.
      assert (X := O2 _ _ _ (map_seq_split ECell C i Hi) SK). rewrite total_cells in X. exact X.
  - apply Nat.eqb_neq in CZ. eexists. eexists. eexists. split; [exact E0|]. split; [reflexivity|]. split.
    + split; [lia|]. intros [i|e k|i k] VL; cbn in VL.
      * destruct (R0 i VL) as (v & V1 & V2). exists v. split; auto. cbn. fold V in VL. rewrite OU1 by (left; exact VL). exact V2.
      * destruct VL as [He Hk]. exact (stored_edges _ val r1 N2 ST1 e k He Hk).
      * destruct VL as [-> _]. lia.
    + split; [exact LO1|]. split; [apply repeat_length|]. split; [auto|]. intros i Hi CZ2. congruence.
Qed.
(** The values of functions. *)
Lemma function_points : forall A codim (mf : ent -> list R -> res A) w, codim < 2 -> has_values codim mf -> vw_codim w = codim -> vw_order w = n ->
  off_ok codim (vw_off1 w) (vw_off0 w) -> length (g_points (vf_grid (vw_file w))) = num_points m codim n -> exists r, mf_points m w mf = Ok r /\ filled codim mf r.
Proof.
  intros A codim mf w HC HV WC WO OK LP. unfold mf_points. rewrite LP, WC, WO. destruct OK as (LO1 & LO0 & O1 & O0). pose proof (num_points_total codim HC) as NP.
  destruct (nodes_written _ codim mf (num_points m codim n) HC HV) as (r0 & E0 & L0 & R0).
  { rewrite NP. unfold coff, eoff. fold V. destruct (codim =? 0); lia. }
  rewrite E0. cbn [bind]. destruct (le_lt_dec 2 n) as [N2|N2].
  - destruct (mf_loop_ok m n N2 A mf (entities m 1) V (vw_off1 w) r0) as (r1 & A1 & L1 & ST1 & OU1).
    { intros e He. apply in_map_iff in He. destruct He as (i & <- & Hi). discriminate. }
    { intros a e b X SK. destruct (map_seq_elem EEdge E a e b) as (i & Hi & -> & ->); [congruence|exact X|]. rewrite total_edges. apply O1; auto. }
    { intros e l x He AL Hx. apply in_map_iff in He. destruct He as (i & <- & Hi). apply in_seq in Hi. apply HV; [cbn; cbn in Hi; lia|cbn; lia|eapply aux_in_ref; eauto]. }
    { change (entities m 1) with (map EEdge (seq 0 E)). rewrite total_edges, L0, NP. unfold coff, eoff. fold V E. destruct (codim =? 0); lia. }
    rewrite A1. cbn [bind]. destruct (codim =? 0) eqn:CZ.
    + apply Nat.eqb_eq in CZ. subst codim.
      destruct (mf_loop_ok m n N2 A mf (entities m 0) (eoff E) (vw_off0 w) r1) as (r & A2 & L2 & ST2 & OU2).
      { intros e He. apply in_map_iff in He. destruct He as (i & <- & Hi). apply in_seq in Hi. destruct (cells_below i) as (c & Ec); [cbn in Hi; fold C in Hi; lia|]. destruct (cell_ty i c Ec) as [-> [-> | ->]]; discriminate. }
      { intros a e b X SK. destruct (map_seq_elem ECell C a e b) as (i & Hi & -> & ->); [congruence|exact X|]. rewrite total_cells. apply O0; auto. }
      { intros e l x He AL Hx. apply in_map_iff in He. destruct He as (i & <- & Hi). apply in_seq in Hi. apply HV; [cbn; cbn in Hi; lia|lia|eapply aux_in_ref; eauto]. }
      { change (entities m 0) with (map ECell (seq 0 C)). rewrite total_cells, L1, L0, NP. unfold coff. fold E. lia. }
      exists r. split; [exact A2|]. change (entities m 0) with (map ECell (seq 0 C)) in *. rewrite total_cells in *. split; [lia|]. intros [i|e k|i k] VL; cbn in VL.
      * destruct (R0 i VL) as (v & V1 & V2). exists v. split; auto. cbn. fold V in VL. rewrite OU2 by (left; unfold eoff; fold V; lia). rewrite OU1 by (left; exact VL). exact V2.
      * destruct VL as [He Hk]. destruct (stored_edges _ mf r1 N2 ST1 e k He Hk) as (v & V1 & V2). exists v. split; auto. cbn. rewrite OU2; [exact V2|]. left.
        unfold eoff. pose proof (before_lt shareE e E He) as B. unfold shareE in B at 2. cbn [NumAuxNodes] in B. lia.
      * destruct VL as (_ & c & Ec & Hk). exact (stored_cells _ mf r N2 ST2 i k c Ec Hk).
    + apply Nat.eqb_neq in CZ. exists r1. split; [reflexivity|]. split; [lia|]. intros [i|e k|i k] VL; cbn in VL.
      * destruct (R0 i VL) as (v & V1 & V2). exists v. split; auto. cbn. fold V in VL. rewrite OU1 by (left; exact VL). exact V2.
      * destruct VL as [He Hk]. exact (stored_edges _ mf r1 N2 ST1 e k He Hk).
      * destruct VL as [-> _]. lia.
  - assert (n = 1) by lia.
    assert (SKIP : forall es off (r : list (option A)), mf_loop m n off mf es r = Ok r). { intros es off r. induction es as [|e es IH]; [reflexivity|]. cbn [mf_loop]. rewrite H in *. cbn [Nat.eqb orb]. exact IH. }
    exists r0. rewrite !SKIP. cbn [bind]. split; [destruct (codim =? 0); rewrite ?SKIP; reflexivity|]. split; [exact L0|]. intros [i|e k|i k] VL; cbn in VL; [|lia|].
    + apply R0. exact VL.
    + destruct VL as (_ & c & Ec & Hk). destruct (cell_ty _ _ Ec) as [_ [T|T]]; rewrite T, H in Hk; cbn in Hk; lia.
Qed.
End Points.
