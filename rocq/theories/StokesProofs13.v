(** C100: the system for the offset function. *)
From Coq Require Import Reals List Arith Lia Lra Bool.
Import ListNotations.
From Verif Require Import Base Scalars MeshModel MeshView RefPatModel GeoModel GeoSpec DofModel DofSpec FlagSpec FlagModel FlagProofs RefineSpec FeModel QuadModel LagrModel
  AssembleModel AssembleSpec AssembleProofs ElemModel ElemSpec ElemProofs ElemProofs3 FeSpec FeToolsModel FeToolsSpec GalerkinModel GalerkinSpec GalerkinProofs GalerkinProofs5 GalerkinProofs7 HierProofs DpgModel DpgProofs6 NormalModel NormalSpec NormalProofs4 NormalProofs5
  StokesModel StokesSpec StokesProofs StokesProofs2 StokesProofs3 StokesProofs4 StokesProofs5 StokesProofs12 FlowSpec.
Local Open Scope R_scope.

Ltac rring := try change (@eq (car Rring)) with (@eq R); cbn [car kmul kadd k0 k1 Rring]; ring.
Lemma sum_chosen : forall s l (F : nat -> R), sum_to (length (chosen s l)) (fun a => F (nth a (chosen s l) 0%nat)) = sum_to 3 (fun i => if s (nth i l 0%nat) then F i else 0).
Proof.
  intros s l F. unfold chosen. rewrite sum3. cbn [seq filter]. destruct (s (nth 0 l 0%nat)), (s (nth 1 l 0%nat)), (s (nth 2 l 0%nat)); unfold sum_to; cbn [length seq map nth fold_right rsum]; lra.
Qed.

(** The assembly loop with a provider that delivers. *)
Lemma rect_pure : forall trial test eval (M : ent -> dense Rring) es A, (forall e, In e es -> eval e = Ok (M e)) ->
  each es (assemble_rect trial test eval) A = assemble_loop Rring trial test (mkMP Rring (fun _ => true) M) es A.
Proof.
  intros trial test eval M es. unfold each. induction es as [|e es IH]; intros A H; [reflexivity|]. cbn [fold_left bind assemble_loop].
  unfold assemble_rect at 2, assemble_entity. cbn [mp_active mp_eval]. rewrite (H e (or_introl eq_refl)).
  assert (X : forall r : res (coo Rring), (forall A, r <> Ok A) -> forall es, fold_left (fun r x => do s <- r; assemble_rect trial test eval x s) es r = r).
  { intros r Hr l. induction l as [|y l IHl]; [reflexivity|]. cbn [fold_left]. destruct r; [exfalso; eapply Hr; reflexivity| |]; cbn [bind]; exact IHl. }
  assert (Y : forall r : res (coo Rring), fold_left (fun r x => do s <- r; assemble_rect trial test eval x s) es r =
     do A' <- r; assemble_loop Rring trial test (mkMP Rring (fun _ => true) M) es A').
  { intros r. destruct r as [A'| |]; cbn [bind]; [apply IH; intros; apply H; right; assumption| |]; apply X; intros; discriminate. }
  rewrite Y. destruct (NumLocalDofs test e); cbn [bind]; [|reflexivity..]. destruct (NumLocalDofs trial e); cbn [bind]; [|reflexivity..].
  destruct (GlobalDofIndices test e); cbn [bind]; [|reflexivity..]. destruct (GlobalDofIndices trial e); cbn [bind]; [|reflexivity..].
  reflexivity.
Qed.

Section Jumps.
Variables (m : mesh) (geom : ent -> geo) (pos : nat -> vec) (n : nat -> nat -> vec).
Hypothesis TR : triangulation m geom pos.
Hypothesis NO : normals_of m geom n.
Variables (bd : adset) (bn : nat -> bool).
Notation be := (boundary_edge m).
Hypothesis BE : forall e, (e < size m 1)%nat -> adget bd 1 e = Ok (be e).
Hypothesis BN : forall v, (v < size m 2)%nat -> adget bd 2 v = Ok (bn v).
Notation nv := (size m 2).
Notation ne := (size m 1).
Notation fld := (field_at m geom).
Notation Mn := (rank bn nv).
Notation Me := (rank be ne).

(** Node values given by the unknowns. *)
Definition spread_out (x : nat -> R) (v : nat) : R := if bn v then x (rank bn v) else 0.

Definition entry_normal (c i k : nat) : R := inner 2 (nth k (basis_at geom c) vzero) (n c i).
Definition cell_jump (c : nat) : dense Rring :=
  let be' := chosen be (cv_edges (cell_at m c)) in let bn' := chosen bn (cv_nodes (cell_at m c)) in
  mkDense Rring (Nat.max 1 (length be')) (Nat.max 1 (length bn')) (fun i j =>
    match nth_error be' i, nth_error bn' j with
    | Some i, Some k => GeoModel.dot 2 (nth i (normals_at geom c) vzero) (nth k (basis_at geom c) vzero)
    | _, _ => 0
    end).
Lemma on_boundary_is : forall cd s l, length l = 3%nat -> (forall x, In x l -> adget bd cd x = Ok (s x)) -> on_boundary bd cd l = Ok (chosen s l).
Proof.
  intros cd s l L H. destruct l as [|a [|b [|c [|]]]]; try discriminate L. unfold on_boundary. cbn [traverse].
  rewrite (H a), (H b), (H c) by (cbn [In]; auto). reflexivity.
Qed.
Lemma jump_eval : forall c, (c < size m 0)%nat -> NormalJumpEval m geom bd (DofModel.ECell c) = Ok (cell_jump c).
Proof.
  intros c H. destruct (tr_trias _ _ _ TR) as [W T]. destruct (cell_parts m W T c H) as (v & n0 & n1 & n2 & e0 & e1 & e2 & E & EC & En & Ee & H0 & H1 & H2 & G0 & G1 & G2).
  unfold NormalJumpEval. destruct (normals_is m geom pos n TR NO c H) as [-> _]. destruct (basis_is m geom pos TR c H) as [-> _]. cbn [bind sub_entities].
  rewrite (on_boundary_is 2 bn), (on_boundary_is 1 be).
  - reflexivity.
  - rewrite EC, Ee. reflexivity.
  - rewrite EC, Ee. intros x I. cbn [In] in I. apply BE. repeat (destruct I as [I|I]; [subst x; assumption|]). destruct I.
  - rewrite EC, En. reflexivity.
  - rewrite EC, En. intros x I. cbn [In] in I. apply BN. repeat (destruct I as [I|I]; [subst x; assumption|]). destruct I.
Qed.
Definition cell_mat (e : ent) : dense Rring := match e with DofModel.ECell c => cell_jump c | _ => mkDense Rring 0 0 (fun _ _ => 0) end.
Definition rows_of (e : ent) : list nat := match e with DofModel.ECell c => cell_rows m be c | _ => [] end.
Definition cols_of (e : ent) : list nat := match e with DofModel.ECell c => cell_cols m bn c | _ => [] end.
Notation prov := (mkMP Rring (fun _ => true) cell_mat).

Lemma through_over : forall w e, through m n w e = over_sides m (fun c i => inner 2 (w c) (n c i)) e.
Proof. reflexivity. Qed.
Lemma through_ext : forall w w' e, (forall c, (c < size m 0)%nat -> same_points (w c) (w' c)) -> through m n w e = through m n w' e.
Proof. intros w w' e H. apply sum_to_ext. intros c Hc. apply sum_to_ext. intros i _. destruct (is_side m c i e); [|reflexivity]. apply inner_same; [apply H, Hc|apply same_refl]. Qed.

Lemma local_jump : forall v u : nat -> R, form Rring Me Mn (local_sum Rring prov (entities m 0) rows_of cols_of) v u =
  sum_to ne (fun e => (if be e then v (rank be e) else 0) * through m n (fld (spread_out u)) e).
Proof.
  intros v u. destruct (tr_trias _ _ _ TR) as [W T]. rewrite form_local_sum.
  2:{ intros e I. rewrite cells_are in I. apply in_map_iff in I as (c & <- & I). apply in_seq in I. cbn [rows_of cols_of].
      split; [apply (rows_is m bd be W T BE c ltac:(lia))|apply (cols_is m bd bn W T BN c ltac:(lia))]. }
  rewrite suml_over. unfold sum_over. rewrite cells_are, map_map.
  transitivity (sum_to (size m 0) (fun c => sum_to 3 (fun i => inner 2 (fld (spread_out u) c) (n c i) * (if be (side_at m c i) then v (rank be (side_at m c i)) else 0)))).
  - apply sum_to_ext. intros c Hc. unfold local_form. cbn [mp_active mp_eval cell_mat rows_of cols_of]. unfold form. rewrite sumn_to.
    unfold cell_rows at 1. rewrite map_length.
    transitivity (sum_to (length (chosen be (cv_edges (cell_at m c)))) (fun a => (fun i => v (rank be (side_at m c i)) * inner 2 (fld (spread_out u) c) (n c i)) (nth a (chosen be (cv_edges (cell_at m c))) 0%nat))).
    + apply sum_to_ext. intros a Ha. cbv beta. cbn [kmul Rring]. f_equal.
      * unfold restrict, cell_rows. rewrite (nth_indep _ 0%nat ((fun i => rank be (nth i (cv_edges (cell_at m c)) 0%nat)) 0%nat)) by (rewrite map_length; exact Ha).
        rewrite (map_nth (fun i => rank be (nth i (cv_edges (cell_at m c)) 0%nat))). reflexivity.
      * unfold mv. rewrite sumn_to. unfold cell_cols at 1. rewrite map_length.
        set (i := nth a (chosen be (cv_edges (cell_at m c))) 0%nat).
        assert (Hi : (i < 3)%nat). { assert (I : In i (chosen be (cv_edges (cell_at m c)))) by (apply nth_In; exact Ha). apply filter_In in I as [I _]. apply in_seq in I. lia. }
        transitivity (sum_to (length (chosen bn (cv_nodes (cell_at m c)))) (fun b => (fun k => entry_normal c i k * u (rank bn (node_at m c k))) (nth b (chosen bn (cv_nodes (cell_at m c))) 0%nat))).
        -- apply sum_to_ext. intros b Hb. cbv beta. cbn [kmul Rring]. f_equal.
           ++ unfold cell_jump. cbn [d_coef]. rewrite (nth_error_nth' _ 0%nat Ha), (nth_error_nth' _ 0%nat Hb). fold i. destruct (normals_is m geom pos n TR NO c Hc) as [_ S]. specialize (S i Hi).
              unfold entry_normal. rewrite dot2, inner2, (S 0%nat), (S 1%nat) by lia. rring.
           ++ unfold restrict, cell_cols. rewrite (nth_indep _ 0%nat ((fun k => rank bn (nth k (cv_nodes (cell_at m c)) 0%nat)) 0%nat)) by (rewrite map_length; exact Hb).
              rewrite (map_nth (fun k => rank bn (nth k (cv_nodes (cell_at m c)) 0%nat))). reflexivity.
        -- rewrite (sum_chosen bn (cv_nodes (cell_at m c)) (fun k => entry_normal c i k * u (rank bn (node_at m c k)))). rewrite sum3. unfold field_at. rewrite inner_comb.
           unfold entry_normal, spread_out, node_at. destruct (bn (nth 0 (cv_nodes (cell_at m c)) 0%nat)), (bn (nth 1 (cv_nodes (cell_at m c)) 0%nat)), (bn (nth 2 (cv_nodes (cell_at m c)) 0%nat)); rring.
    + rewrite (sum_chosen be (cv_edges (cell_at m c)) (fun i => v (rank be (side_at m c i)) * inner 2 (fld (spread_out u) c) (n c i))). apply sum_to_ext. intros i Hi. unfold side_at.
      destruct (be (nth i (cv_edges (cell_at m c)) 0%nat)); rring.
  - rewrite (by_edges m (fun c i => inner 2 (fld (spread_out u) c) (n c i)) (fun e => if be e then v (rank be e) else 0) (tr_trias _ _ _ TR)).
    apply sum_to_ext. intros e _. rewrite through_over. rring.
Qed.

(** Columns of ones. *)
Lemma add_col_spec : forall j js A, let A' := fold_left (fun A i => AddToEntry Rring i j 1 A) js A in
  (coo_ok Rring A -> coo_ok Rring A') /\
  (forall a b, tval Rring (c_trip Rring A') a b = tval Rring (c_trip Rring A) a b + suml (K := Rring) (map (fun i => if ((i =? a) && (j =? b))%nat then 1 else 0) js)) /\
  (forall k l, (j < l)%nat -> Forall (fun i => (i < k)%nat) js -> (k <= c_rows Rring A)%nat -> (l <= c_cols Rring A)%nat -> c_rows Rring A' = c_rows Rring A /\ c_cols Rring A' = c_cols Rring A).
Proof.
  intros j. induction js as [|i js IH]; intros A; cbn [fold_left].
  - split; auto. split; auto. intros. symmetry. apply Rplus_0_r.
  - destruct (IH (AddToEntry Rring i j 1 A)) as (H1 & H2 & H3). split; [|split].
    + intros H. apply H1, AddToEntry_ok, H.
    + intros a b. cbv zeta in H2. rewrite H2, AddToEntry_val. cbn [map suml kadd Rring]. rewrite (Nat.eqb_sym a i), (Nat.eqb_sym b j). cbn [k0 Rring]. rring.
    + intros k l Hi Hjs Hn Hm. inversion Hjs; subst. pose proof (AddToEntry_rows Rring i j 1 A) as Q1. pose proof (AddToEntry_cols Rring i j 1 A) as Q2.
      destruct (H3 k l) as [-> ->]; [exact Hi|assumption|rewrite Q1; lia|rewrite Q2; lia|]. rewrite Q1, Q2. lia.
Qed.
Lemma ones : forall k a, suml (K := Rring) (map (fun i => if (i =? a)%nat then 1 else 0) (seq 0 k)) = if (a <? k)%nat then 1 else 0.
Proof.
  induction k as [|k IH]; intros a; [reflexivity|]. rewrite seq_S, map_app, suml_app, IH. cbn [map suml kadd k0 Rring Nat.add].
  destruct (Nat.ltb_spec a k), (Nat.ltb_spec a (S k)), (Nat.eqb_spec k a); try lia; lra.
Qed.
Lemma suml_zeros : forall (l : list nat), suml (K := Rring) (map (fun _ => 0) l) = 0.
Proof. induction l as [|a l IH]; [reflexivity|]. cbn [map suml kadd Rring]. rewrite IH. cbn [k0 Rring]. rring. Qed.

Lemma matrix_jump : exists J D, jump_matrix m geom bd = Ok J /\ AssembleSpec.is_matrix Rring J (Me + 1) (Mn + 1) D /\
  (forall x : nat -> R, mv Rring (Mn + 1) D x Me = sum_to Mn x) /\
  (forall (x : nat -> R) e, (e < ne)%nat -> be e = true -> mv Rring (Mn + 1) D x (rank be e) = through m n (fld (spread_out x)) e + x Mn).
Proof.
  destruct (tr_trias _ _ _ TR) as [W T]. unfold jump_matrix. rewrite (num_nodes_dofs m bd bn W BN), (num_edges_dofs m bd be W BE).
  rewrite (rect_pure _ _ _ cell_mat).
  2:{ intros e I. rewrite cells_are in I. apply in_map_iff in I as (c & <- & I). apply in_seq in I. apply jump_eval. lia. }
  assert (SR : serves (boundary_dofs m bd 1) (entities m 0) rows_of).
  { intros e I. rewrite cells_are in I. apply in_map_iff in I as (c & <- & I). apply in_seq in I. cbn [rows_of]. rewrite (num_edges_dofs m bd be W BE). apply (rows_is m bd be W T BE). lia. }
  assert (SC : serves (boundary_dofs m bd 2) (entities m 0) cols_of).
  { intros e I. rewrite cells_are in I. apply in_map_iff in I as (c & <- & I). apply in_seq in I. cbn [cols_of]. rewrite (num_nodes_dofs m bd bn W BN). apply (cols_is m bd bn W T BN). lia. }
  assert (BG : big_enough Rring prov (entities m 0) rows_of cols_of).
  { intros e I _. rewrite cells_are in I. apply in_map_iff in I as (c & <- & I). cbn [mp_eval cell_mat rows_of cols_of cell_jump d_rows d_cols]. unfold cell_rows, cell_cols. rewrite !map_length. lia. }
  destruct (assemble_loop_spec Rring (boundary_dofs m bd 2) (boundary_dofs m bd 1) prov rows_of cols_of (entities m 0) (coo_new Rring (Me + 1) (Mn + 1)) SR SC BG) as (J0 & -> & K0 & V0 & S0).
  rewrite (num_nodes_dofs m bd bn W BN), (num_edges_dofs m bd be W BE) in S0. cbn [coo_new c_rows c_cols] in S0. destruct S0 as [R0 C0]; [lia|lia|]. cbn [bind].
  destruct (add_row_spec Rring (fun i => i) (fun _ => 1) Me (seq 0 Mn) J0) as (K1 & V1 & S1). set (J1 := fold_left _ (seq 0 Mn) J0) in *.
  destruct (S1 (Me + 1)%nat (Mn + 1)%nat) as [R1 C1]; [lia|apply Forall_forall; intros i I; apply in_seq in I; lia|lia|lia|].
  destruct (add_col_spec Mn (seq 0 Me) J1) as (K2 & V2 & S2). set (J2 := fold_left _ (seq 0 Me) J1) in *.
  destruct (S2 (Me + 1)%nat (Mn + 1)%nat) as [R2 C2]; [lia|apply Forall_forall; intros i I; apply in_seq in I; lia|lia|lia|].
  set (L := local_sum Rring prov (entities m 0) rows_of cols_of) in *.
  exists J2, (fun a b => L a b + (if ((a =? Me) && (b <? Mn))%nat then 1 else 0) + (if ((a <? Me) && (b =? Mn))%nat then 1 else 0)). split; [reflexivity|].
  assert (VAL : forall a b, tval Rring (c_trip Rring J2) a b = L a b + (if ((a =? Me) && (b <? Mn))%nat then 1 else 0) + (if ((a <? Me) && (b =? Mn))%nat then 1 else 0)).
  { intros a b. rewrite V2, V1, V0. cbn [kadd Rring]. f_equal; [f_equal|].
    - unfold coo_new, tval. cbn [c_trip map suml kadd k0 Rring]. unfold L. rring.
    - destruct (Nat.eqb_spec a Me) as [Q|Q]; cbn [andb].
      + subst a. rewrite Nat.eqb_refl. cbn [andb]. apply ones.
      + replace (Me =? a)%nat with false by (symmetry; apply Nat.eqb_neq; lia). cbn [andb]. apply suml_zeros.
    - destruct (Nat.eqb_spec b Mn) as [Q|Q].
      + subst b. rewrite Nat.eqb_refl. rewrite andb_true_r. etransitivity; [|apply (ones Me a)]. f_equal. apply map_ext. intros i. rewrite andb_true_r. reflexivity.
      + replace (Mn =? b)%nat with false by (symmetry; apply Nat.eqb_neq; lia). rewrite andb_false_r. etransitivity; [|apply (suml_zeros (seq 0 Me))]. f_equal. apply map_ext. intros i. rewrite andb_false_r. reflexivity. }
  split; [apply is_matrix_intro; [apply K2, K1, K0, new_ok|lia|lia|]; intros a b _ _; apply VAL|].
  (* the matrix outside the blocks of the handlers *)
  assert (LO : forall a b, (Me <= a)%nat \/ (Mn <= b)%nat -> L a b = 0).
  { intros a b Hab. unfold L, local_sum. rewrite suml_over. unfold sum_over. rewrite cells_are, map_map. apply sum_zero. intros c Hc. cbn [mp_active mp_eval].
    rewrite sumn_to. apply sum_zero. intros i Hi. rewrite sumn_to. apply sum_zero. intros j Hj. cbn [rows_of cols_of] in *.
    pose proof (proj2 (proj2 (rows_is m bd be W T BE c Hc))) as F1. pose proof (proj2 (proj2 (cols_is m bd bn W T BN c Hc))) as F2. rewrite Forall_forall in F1, F2.
    pose proof (F1 _ (nth_In _ 0%nat Hi)). pose proof (F2 _ (nth_In _ 0%nat Hj)).
    destruct (Nat.eqb_spec (nth i (cell_rows m be c) 0%nat) a), (Nat.eqb_spec (nth j (cell_cols m bn c) 0%nat) b); try lia; reflexivity. }
  assert (MV : forall x : nat -> R, forall a, mv Rring (Mn + 1) (fun a b => L a b + (if ((a =? Me) && (b <? Mn))%nat then 1 else 0) + (if ((a <? Me) && (b =? Mn))%nat then 1 else 0)) x a =
    mv Rring Mn L x a + (if (a =? Me)%nat then sum_to Mn x else 0) + (if (a <? Me)%nat then x Mn else 0)).
  { intros x a. unfold mv. rewrite !sumn_to. rewrite Nat.add_1_r, sum_to_S. cbn [kmul kadd Rring]. rewrite (LO a Mn) by lia. rewrite Nat.ltb_irrefl, Nat.eqb_refl, andb_false_r, andb_true_r.
    rewrite (sum_to_ext Mn _ (fun j => L a j * x j + (if (a =? Me)%nat then 1 else 0) * x j)).
    - rewrite sum_to_plus, sum_to_scal. change (sum_to Mn (fun i => x i)) with (sum_to Mn x). replace (sumn (K := Rring) Mn (fun j => L a j * x j)) with (sum_to Mn (fun j => L a j * x j)) by (symmetry; apply (sumn_to Mn (fun j => L a j * x j))).
 destruct (a =? Me)%nat, (a <? Me)%nat; rring.
    - intros j Hj. rewrite (proj2 (Nat.ltb_lt j Mn) Hj), (proj2 (Nat.eqb_neq j Mn)) by lia. rewrite andb_false_r, andb_true_r. destruct (a =? Me)%nat; cbn; rring. }
  split.
  - intros x. rewrite MV, Nat.eqb_refl, Nat.ltb_irrefl. unfold mv. rewrite sumn_to. rewrite (sum_zero Mn); [rring|]. intros j _. rewrite LO by lia. cbn. rring.
  - intros x e He Be. pose proof (rank_lt be e ne He Be) as RL. rewrite MV. rewrite (proj2 (Nat.ltb_lt _ _) RL), (proj2 (Nat.eqb_neq (rank be e) Me)) by lia.
    assert (Q : mv Rring Mn L x (rank be e) = through m n (fld (spread_out x)) e); [|rewrite Q; rring].
    transitivity (form Rring Me Mn L (fun i => if (i =? rank be e)%nat then 1 else 0) x).
    + unfold form. rewrite sumn_to. symmetry. apply (sum_unit Me (rank be e) (fun i => mv Rring Mn L x i) RL).
    + unfold L. rewrite local_jump. etransitivity; [|apply (sum_unit ne e (fun e => through m n (fld (spread_out x)) e) He)]. apply sum_to_ext. intros e' He'.
      destruct (Nat.eqb_spec e' e) as [->|Ne]; [rewrite Be, Nat.eqb_refl; reflexivity|]. destruct (be e') eqn:Be'; [|rring].
      destruct (Nat.eqb_spec (rank be e') (rank be e)) as [Q|]; [|rring]. exfalso. apply Ne. exact (rank_inj be e' e Be' Be Q).
Qed.
End Jumps.
