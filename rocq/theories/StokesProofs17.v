(** C100: boundaries of several curves; a solver; examples. *)
From Coq Require Import Reals List Arith Lia Lra Bool.
Import ListNotations.
From Verif Require Import Base Scalars MeshModel MeshView RefPatModel GeoModel GeoSpec GeoProofs GeoProofs2 DofModel DofSpec DofProofs FlagSpec FlagModel FlagProofs RefineSpec FeModel QuadModel LagrModel
  AssembleModel AssembleSpec AssembleProofs ElemModel ElemSpec ElemProofs ElemProofs3 FeSpec GalerkinModel GalerkinProofs GalerkinProofs5 GalerkinProofs7 HierProofs DpgModel DpgProofs6 NormalModel NormalSpec NormalProofs NormalProofs2 NormalProofs4 NormalProofs5 NormalProofs6
  LinAlg StokesModel StokesSpec StokesProofs StokesProofs2 StokesProofs3 StokesProofs4 StokesProofs5 StokesProofs6 StokesProofs7 StokesProofs8 StokesProofs9 StokesProofs10 StokesProofs11 StokesProofs12 StokesProofs13 StokesProofs14 StokesProofs15 FlowSpec.
Local Open Scope R_scope.

(** * Several curves *)
Lemma sum_rank : forall s (F : nat -> R) k, sum_to (rank s k) F = sum_to k (fun v => if s v then F (rank s v) else 0).
Proof. intros s F. induction k as [|k IH]; [reflexivity|]. rewrite rank_S, sum_to_S, <- IH. destruct (s k); [rewrite Nat.add_1_r, sum_to_S; reflexivity|rewrite Nat.add_0_r; lra]. Qed.
(** The node with this rank. *)
Fixpoint unrank (s : nat -> bool) (k i : nat) : nat :=
  match k with 0%nat => 0%nat | S k => if s k && (rank s k =? i)%nat then k else unrank s k i end.
Lemma unrank_rank : forall s k v, (v < k)%nat -> s v = true -> unrank s k (rank s v) = v.
Proof.
  intros s k v. induction k as [|k IH]; intros H B; [lia|]. cbn [unrank]. destruct (s k) eqn:E; cbn [andb].
  - destruct (Nat.eqb_spec (rank s k) (rank s v)) as [Q|Q]; [exact (rank_inj s k v E B Q)|]. apply IH; [|exact B]. destruct (Nat.eq_dec v k) as [->|]; [contradiction|lia].
  - apply IH; [|exact B]. destruct (Nat.eq_dec v k) as [->|]; [congruence|lia].
Qed.
Lemma sum_nonneg : forall k F, (forall i, (i < k)%nat -> 0 <= F i) -> 0 <= sum_to k F.
Proof. induction k as [|k IH]; intros F P; [unfold sum_to; simpl; lra|]. rewrite sum_to_S. assert (0 <= F k) by (apply P; lia). assert (0 <= sum_to k F) by (apply IH; intros; apply P; lia). lra. Qed.
Lemma sum_positive : forall k F i, (forall i, (i < k)%nat -> 0 <= F i) -> (i < k)%nat -> 0 < F i -> 0 < sum_to k F.
Proof.
  intros k F i P Hi Fi. destruct (Rle_lt_or_eq_dec 0 (sum_to k F) (sum_nonneg k F P)) as [L|L]; [exact L|]. rewrite (sum_squares k F P (eq_sym L) i Hi) in Fi. lra.
Qed.

Theorem several_curves : forall m geom pos n, triangulation m geom pos -> normals_of m geom n -> manifold m ->
  forall (part : nat -> bool) v0 v1, boundary_node m v0 -> boundary_node m v1 -> part v0 = true -> part v1 = false ->
  (forall e v w, ends_in m v e -> ends_in m w e -> part v = part w) -> closed_curves m ->
  exists bd J k D, flag_boundary_all m = Ok bd /\ jump_matrix m geom bd = Ok J /\ AssembleSpec.is_matrix Rring J k k D /\ ~ regular k D.
Proof.
  intros m geom pos n TR NO MF part v0 v1 B0 B1 P0 P1 PC CC. destruct (tr_trias _ _ _ TR) as [W T].
  destruct (flags m W) as (bd & E & BE & BN).
  set (bn := fun v => match adget bd 2 v with Ok x => x | _ => false end).
  assert (BN' : forall v, (v < size m 2)%nat -> adget bd 2 v = Ok (bn v)) by (intros v Hv; unfold bn; destruct (BN v Hv) as (x & -> & _); reflexivity).
  assert (BB : forall v, (v < size m 2)%nat -> (bn v = true <-> boundary_node m v)) by (intros v Hv; unfold bn; destruct (BN v Hv) as (x & -> & Hx); exact Hx).
  destruct (matrix_jump m geom pos n TR NO bd bn BE BN') as (J & D & EJ & MJ & M1 & M2). pose proof (two_ends m geom pos TR bn BB CC) as EQ.
  exists bd, J, (rank bn (size m 2) + 1)%nat, D. split; [exact E|]. split; [exact EJ|]. split; [rewrite <- EQ in MJ; exact MJ|]. intros RG.
  set (ct := sum_to (size m 2) (fun v => if bn v then (if part v then 1 else 0) else 0)). set (cf := sum_to (size m 2) (fun v => if bn v then (if part v then 0 else 1) else 0)).
  pose proof (node_range m geom pos TR v0 B0) as H0. pose proof (node_range m geom pos TR v1 B1) as H1.
  assert (CF : 0 < cf).
  { apply sum_positive with v1; [intros i _; destruct (bn i), (part i); lra|exact H1|]. rewrite (proj2 (BB v1 H1) B1), P1. lra. }
  set (val := fun v => if part v then cf else - ct).
  set (x := fun i => if (i <? rank bn (size m 2))%nat then val (unrank bn (size m 2) i) else 0).
  assert (XV : forall v, (v < size m 2)%nat -> bn v = true -> x (rank bn v) = val v).
  { intros v Hv B. unfold x. rewrite (proj2 (Nat.ltb_lt _ _) (rank_lt bn v _ Hv B)), unrank_rank by assumption. reflexivity. }
  assert (XL : x (rank bn (size m 2)) = 0) by (unfold x; rewrite Nat.ltb_irrefl; reflexivity).
  assert (Z : forall i, (i < rank bn (size m 2) + 1)%nat -> mv Rring (rank bn (size m 2) + 1) D x i = 0).
  { intros i Hi. destruct (Nat.eq_dec i (rank (boundary_edge m) (size m 1))) as [->|Ne].
    - rewrite M1, sum_rank. change (@eq (car Rring)) with (@eq R). transitivity (cf * ct + - ct * cf); [|ring]. unfold ct at 1. unfold cf at 2. rewrite <- !sum_to_scal, <- sum_to_plus. apply sum_to_ext. intros v Hv.
      destruct (bn v) eqn:B; [|ring]. rewrite (XV v Hv B). unfold val. destruct (part v); ring.
    - destruct (rank_onto (boundary_edge m) (size m 1) i ltac:(lia)) as (e & He & Be & <-). rewrite (M2 x e He Be), XL, Rplus_0_r.
      destruct (nth_error (mv_edges m) e) as [[a b]|] eqn:Ee; [|apply nth_error_None in Ee; unfold size in He; lia].
      apply (no_difference m geom pos n TR NO MF (spread_out bn x) _ e a b (field_curl m geom pos TR _) Be He Ee).
      assert (Na : boundary_node m a) by (exists e, a, b; auto). assert (Nb : boundary_node m b) by (exists e, a, b; auto).
      pose proof (node_range m geom pos TR a Na) as Ha. pose proof (node_range m geom pos TR b Nb) as Hb. unfold spread_out. rewrite (proj2 (BB a Ha) Na), (proj2 (BB b Hb) Nb).
      rewrite (XV a Ha), (XV b Hb) by (apply BB; assumption). unfold val. rewrite (PC e a b); [reflexivity| |]; (split; [exact Be|]); exists a, b; auto. }
  pose proof (RG x Z (rank bn v0)) as Q. pose proof (proj2 (BB v0 H0) B0) as F0. pose proof (rank_lt bn v0 _ H0 F0). rewrite (XV v0 H0 F0) in Q. unfold val in Q. rewrite P0 in Q. specialize (Q ltac:(lia)). lra.
Qed.

(** * A solver: elimination *)
Fixpoint pivot (n : nat) (a : nat -> R) : option nat :=
  match n with 0%nat => None | S n => match pivot n a with Some p => Some p | None => if Req_EM_T (a n) 0 then None else Some n end end.
Lemma pivot_spec : forall n a, match pivot n a with Some p => (p < n)%nat /\ a p <> 0 | None => forall j, (j < n)%nat -> a j = 0 end.
Proof.
  induction n as [|n IH]; intros a; cbn [pivot]; [intros; lia|]. specialize (IH a). destruct (pivot n a) as [p|]; [split; [lia|apply IH]|].
  destruct (Req_EM_T (a n) 0) as [E|E]; [|split; [lia|exact E]]. intros j Hj. destruct (Nat.eq_dec j n) as [->|]; [exact E|apply IH; lia].
Qed.
(** A vector in the kernel of [k] equations with [n > k] unknowns. *)
Fixpoint kern (k n : nat) (A : nat -> nat -> R) : nat -> R :=
  match k with
  | 0%nat => fun _ => 1
  | S k => match pivot n (A k) with
           | None => kern k n A
           | Some p => let y := kern k (n - 1) (fun i j => A i (skip p j) - A i p / A k p * A k (skip p j)) in
                       fun j => if (j =? p)%nat then - sum_to (n - 1) (fun j => A k (skip p j) * y j) / A k p else y (if (j <? p)%nat then j else (j - 1)%nat)
           end
  end.
Lemma kern_spec : forall k n A, (k < n)%nat -> (exists j, (j < n)%nat /\ kern k n A j <> 0) /\ forall i, (i < k)%nat -> sum_to n (fun j => A i j * kern k n A j) = 0.
Proof.
  induction k as [|k IH]; intros n A H.
  - split; [exists 0%nat; split; [lia|cbn; lra]|]. intros; lia.
  - cbn [kern]. pose proof (pivot_spec n (A k)) as PS. destruct (pivot n (A k)) as [p|].
    + destruct PS as [Hp Z]. destruct n as [|n]; [lia|]. replace (S n - 1)%nat with n by lia.
      destruct (IH n (fun i j => A i (skip p j) - A i p / A k p * A k (skip p j)) ltac:(lia)) as ((j0 & Hj0 & Nz) & E).
      set (y := kern k n (fun i j => A i (skip p j) - A i p / A k p * A k (skip p j))) in *. cbv zeta.
      set (s := sum_to n (fun j => A k (skip p j) * y j)).
      set (x := fun j : nat => if (j =? p)%nat then - s / A k p else y (if (j <? p)%nat then j else (j - 1)%nat)).
      assert (Xp : x p = - s / A k p) by (unfold x; rewrite Nat.eqb_refl; reflexivity).
      assert (Xs : forall j, x (skip p j) = y j).
      { intros j. unfold x, skip. destruct (Nat.ltb_spec j p) as [L|L].
        - destruct (Nat.eqb_spec j p); [lia|]. destruct (Nat.ltb_spec j p); [reflexivity|lia].
        - destruct (Nat.eqb_spec (S j) p); [lia|]. destruct (Nat.ltb_spec (S j) p); [lia|]. f_equal. lia. }
      split.
      * exists (skip p j0). split; [unfold skip; destruct (j0 <? p)%nat; lia|]. change (x (skip p j0) <> 0). rewrite Xs. exact Nz.
      * intros i Hi. change (sum_to (S n) (fun j => A i j * x j) = 0). rewrite (sum_skip n p) by lia. rewrite Xp.
        rewrite (sum_to_ext n (fun j => A i (skip p j) * x (skip p j)) (fun j => A i (skip p j) * y j)) by (intros j _; rewrite Xs; reflexivity).
        destruct (Nat.eq_dec i k) as [->|Ne].
        -- fold s. field. exact Z.
        -- specialize (E i ltac:(lia)).
           rewrite (sum_to_ext n _ (fun j => A i (skip p j) * y j + - (A i p / A k p) * (A k (skip p j) * y j))) in E by (intros j _; ring).
           rewrite sum_to_plus, sum_to_scal in E. fold s in E. rewrite <- E. field. exact Z.
    + destruct (IH n A ltac:(lia)) as (NZ & E). split; [exact NZ|]. intros i Hi. destruct (Nat.eq_dec i k) as [->|]; [|apply E; lia].
      rewrite (sum_to_ext n _ (fun _ => 0)); [apply sum_const0|]. intros j Hj. rewrite PS by exact Hj. ring.
Qed.
Definition eliminate (J : dense Rring) (b : list R) : res (list R) :=
  let n := d_rows Rring J in let x := kern n (S n) (fun i j => if (j <? n)%nat then d_coef Rring J i j else - nth i b 0) in
  Ok (map (fun j => x j / x n) (seq 0 n)).
Lemma eliminate_exact : exact_solver eliminate.
Proof.
  intros n J b RJ CJ Lb INJ. unfold eliminate. rewrite RJ. set (A := d_coef Rring J) in *.
  destruct (kern_spec n (S n) (fun i j => if (j <? n)%nat then A i j else - nth i b 0) ltac:(lia)) as ((j0 & Hj0 & Nz) & E).
  set (x := kern n (S n) (fun i j => if (j <? n)%nat then A i j else - nth i b 0)) in *.
  eexists. split; [reflexivity|]. split; [rewrite map_length, seq_length; reflexivity|].
  assert (E' : forall i, (i < n)%nat -> sum_to n (fun j => A i j * x j) = x n * nth i b 0).
  { intros i Hi. specialize (E i Hi). rewrite sum_to_S in E. destruct (Nat.ltb_spec n n) as [Q|_]; [lia|].
    rewrite (sum_to_ext n _ (fun j => A i j * x j)) in E by (intros j Hj; destruct (Nat.ltb_spec j n); [reflexivity|lia]). lra. }
  destruct (Req_dec (x n) 0) as [Z|Z].
  - exfalso. destruct (Nat.eq_dec j0 n) as [->|Ne]; [exact (Nz Z)|]. apply Nz. apply INJ; [|lia]. intros i Hi. unfold mv. rewrite (sumn_to n). etransitivity; [apply (E' i Hi)|]. rewrite Z. apply Rmult_0_l.
  - intros i Hi. unfold mv. rewrite (sumn_to n). unfold comp. change (@nth (car Rring)) with (@nth R). cbn [k0 kmul Rring]. change (@eq (car Rring)) with (@eq R).
    transitivity (sum_to n (fun j => / x n * (A i j * x j))).
    + apply sum_to_ext. intros j Hj. rewrite (nth_indep _ 0 ((fun j => x j / x n) 0%nat)) by (rewrite map_length, seq_length; exact Hj). rewrite (map_nth (fun j => x j / x n)), seq_nth by exact Hj. cbn [Nat.add]. unfold Rdiv. rring.
    + rewrite sum_to_scal, (E' i Hi). field. exact Z.
Qed.

(** * The square *)
Lemma sq_curves : (exists v, boundary_node sq_mesh v) /\ closed_curves sq_mesh /\ connected_boundary sq_mesh.
Proof.
  assert (EB : forall v e, ends_in sq_mesh v e -> (e < 4)%nat /\ (v = e \/ v = ((e + 1) mod 4)%nat)).
  { intros v e (B & a & b & E & AB). eight e; cbn in E; try (injection E as <- <-); try discriminate B; try (split; [lia|cbn; lia]). }
  assert (BE : forall e, (e < 4)%nat -> ends_in sq_mesh e e /\ ends_in sq_mesh ((e + 1) mod 4) e).
  { intros e H. destruct e as [|[|[|[|]]]]; try lia; (split; (split; [reflexivity|]); cbn; do 2 eexists; (split; [reflexivity|]); auto). }
  assert (BV : forall v, boundary_node sq_mesh v -> (v < 4)%nat).
  { intros v (e & a & b & E & B & AB). destruct (EB v e) as [H1 H2]; [split; [exact B|exists a, b; auto]|]. pose proof (Nat.mod_upper_bound (e + 1) 4). lia. }
  split; [|split].
  - exists 0%nat, 0%nat, 0%nat, 1%nat. repeat split; auto.
  - intros v B. pose proof (BV v B) as Hv. exists [v; ((v + 3) mod 4)%nat].
    split; [|split; [reflexivity|]].
    + destruct v as [|[|[|[|]]]]; try lia; cbn; repeat constructor; cbn; lia.
    + intros e. split.
      * intros [<-|[<-|[]]]; [apply (BE v Hv)|]. pose proof (proj2 (BE ((v + 3) mod 4)%nat ltac:(apply Nat.mod_upper_bound; lia))) as Q. destruct v as [|[|[|[|]]]]; try lia; exact Q.
      * intros H. destruct (EB v e H) as [He Hx]. destruct e as [|[|[|[|]]]]; try lia; cbn in Hx; destruct v as [|[|[|[|]]]]; try lia; cbn; auto.
  - assert (L : forall v, (v < 4)%nat -> linked sq_mesh 0 v).
    { assert (L1 : linked sq_mesh 0 1) by (apply linked_on with 0%nat 0%nat; [apply linked_here|apply (BE 0%nat); lia|apply (BE 0%nat); lia]).
      assert (L2 : linked sq_mesh 0 2) by (apply linked_on with 1%nat 1%nat; [exact L1|apply (BE 1%nat); lia|apply (BE 1%nat); lia]).
      assert (L3 : linked sq_mesh 0 3) by (apply linked_on with 2%nat 2%nat; [exact L2|apply (BE 2%nat); lia|apply (BE 2%nat); lia]).
      intros v H. destruct v as [|[|[|[|]]]]; try lia; auto. apply linked_here. }
    assert (TRANS : forall a b c, linked sq_mesh a b -> linked sq_mesh b c -> linked sq_mesh a c).
    { intros a b c H H'. induction H' as [|x y e _ IH E1 E2]; [exact H|]. apply linked_on with x e; assumption. }
    assert (SYM : forall a b, linked sq_mesh a b -> linked sq_mesh b a).
    { intros a b H. induction H as [|x y e _ IH E1 E2]; [apply linked_here|]. apply TRANS with x; [|exact IH]. apply linked_on with y e; [apply linked_here|exact E2|exact E1]. }
    intros v w Bv Bw. apply TRANS with 0%nat; [apply SYM|]; apply L, BV; assumption.
Qed.

(** * A triangle with a hole *)
Definition hole_mesh : mesh := mkMeshV 6 [(0, 1); (1, 2); (2, 0); (3, 4); (4, 5); (5, 3); (0, 3); (1, 3); (1, 4); (2, 4); (2, 5); (0, 5)]%nat
  [mkCellv [0; 1; 3]%nat [0; 7; 6]%nat [true; true; false]; mkCellv [1; 4; 3]%nat [8; 3; 7]%nat [true; false; false];
   mkCellv [1; 2; 4]%nat [1; 9; 8]%nat [true; true; false]; mkCellv [2; 5; 4]%nat [10; 4; 9]%nat [true; false; false];
   mkCellv [2; 0; 5]%nat [2; 11; 10]%nat [true; true; false]; mkCellv [0; 3; 5]%nat [6; 5; 11]%nat [true; false; false]].
Definition hole_pos (v : nat) : vec :=
  match v with 0%nat => vec2 0 0 | 1%nat => vec2 9 0 | 2%nat => vec2 0 9 | 3%nat => vec2 2 2 | 4%nat => vec2 4 2 | _ => vec2 2 4 end.
Definition hole_geom (e : ent) : geo :=
  match e with
  | DofModel.ECell c => mkGeo GTriaO1 2 (map hole_pos (cv_nodes (cell_at hole_mesh c)))
  | EEdge s => match nth_error (mv_edges hole_mesh) s with Some (a, b) => mkGeo GSegmentO1 2 [hole_pos a; hole_pos b] | None => mkGeo GSegmentO1 2 [] end
  | ENode v => mkGeo GPoint 2 [hole_pos v]
  end.
Ltac twelve i := destruct i as [|[|[|[|[|[|[|[|[|[|[|[|i]]]]]]]]]]]].
Lemma hole_wf : wf_mesh hole_mesh.
Proof.
  split.
  - assert (H : forall c, In c (mv_cells hole_mesh) -> wf_cell hole_mesh c); [|apply Forall_forall; exact H].
    intros c H. cbn [In hole_mesh mv_cells] in H. destruct H as [<-|[<-|[<-|[<-|[<-|[<-|[]]]]]]];
    (split; [left; reflexivity|reflexivity|reflexivity|repeat constructor|]; intros j Hj; cbn in Hj; destruct j as [|[|[|]]]; [| | |lia]; do 4 eexists; repeat split; reflexivity).
  - intros i a b H. twelve i; cbn in H; try (injection H as <- <-; cbn; lia). destruct i; discriminate.
  - intros i j a b c d H H' E. twelve i; cbn in H; try (destruct i; discriminate H); injection H as <- <-;
      (twelve j; cbn in H'; try (destruct j; discriminate H'); injection H' as <- <-; lia).
Qed.
Ltac hole_tria := unfold new_geo, check_tria, tol;
  cbv [hole_geom cell_at hole_mesh mv_cells cv_nodes hole_pos vec2 map go_cols length num_cols Nat.eqb lf_assert bind nth sqnorm GeoModel.dot vsub seq fold_right cross2];
  repeat match goal with |- context [gtb ?a ?b] =>
    replace (gtb a b) with true; [cbv beta iota delta [verify]|symmetry; apply gtb_true] end; try reflexivity; try lra; rewrite Rabs_right; lra.
Lemma hole_triangulation : triangulation hole_mesh hole_geom hole_pos.
Proof.
  split; [apply hole_wf| |].
  - intros c v E. assert (Hc : (c < 6)%nat) by (assert (Q : (c < length (mv_cells hole_mesh))%nat) by (apply nth_error_Some; congruence); exact Q).
    destruct c as [|[|[|[|[|[|]]]]]]; try lia; cbn in E; injection E as <-; (split; [reflexivity|]); (split; [reflexivity|]); (split; [reflexivity|]);
    (split; [|intros i p Hp; destruct i as [|[|[|[|]]]]; cbn in Hp; try discriminate Hp; injection Hp as <-; intros k _; reflexivity]).
    + left. exists GTriaO1, 2%nat, (map hole_pos [0; 1; 3]%nat). hole_tria.
    + left. exists GTriaO1, 2%nat, (map hole_pos [1; 4; 3]%nat). hole_tria.
    + left. exists GTriaO1, 2%nat, (map hole_pos [1; 2; 4]%nat). hole_tria.
    + left. exists GTriaO1, 2%nat, (map hole_pos [2; 5; 4]%nat). hole_tria.
    + left. exists GTriaO1, 2%nat, (map hole_pos [2; 0; 5]%nat). hole_tria.
    + left. exists GTriaO1, 2%nat, (map hole_pos [0; 3; 5]%nat). hole_tria.
  - intros e a b E. unfold hole_geom. rewrite E. repeat split; reflexivity.
Qed.
Lemma hole_manifold : manifold hole_mesh.
Proof. intros e H. cbn in H. twelve e; try lia; cbv; auto. Qed.
Lemma hole_curves : exists part v0 v1, boundary_node hole_mesh v0 /\ boundary_node hole_mesh v1 /\ part v0 = true /\ part v1 = false /\
  (forall e v w, ends_in hole_mesh v e -> ends_in hole_mesh w e -> part v = part w) /\ closed_curves hole_mesh.
Proof.
  exists (fun v => (v <? 3)%nat), 0%nat, 3%nat. split; [|split; [|split; [reflexivity|split; [reflexivity|]]]].
  - exists 0%nat, 0%nat, 1%nat. repeat split; auto.
  - exists 3%nat, 3%nat, 4%nat. repeat split; auto.
  - assert (EB : forall v e, ends_in hole_mesh v e -> (e < 6)%nat /\ (v < 6)%nat /\ ((v <? 3) = (e <? 3))%nat /\ In v (nth e [[0; 1]; [1; 2]; [2; 0]; [3; 4]; [4; 5]; [5; 3]] [])%nat).
    { intros v e (B & a & b & E & AB). twelve e; cbn in E; try (injection E as <- <-); try discriminate B; try (destruct AB as [-> | ->]; cbn; repeat split; auto; lia). }
    split.
    + intros e v w H H'. destruct (EB v e H) as (_ & _ & Q & _). destruct (EB w e H') as (_ & _ & Q' & _). congruence.
    + intros v (e0 & a & b & E & B & AB). destruct (EB v e0) as (_ & Hv & _); [split; [exact B|exists a, b; auto]|].
      exists (nth v [[0; 2]; [0; 1]; [1; 2]; [3; 5]; [3; 4]; [4; 5]]%nat []). split; [|split].
      * destruct v as [|[|[|[|[|[|]]]]]]; try lia; cbn; repeat constructor; cbn; lia.
      * destruct v as [|[|[|[|[|[|]]]]]]; try lia; reflexivity.
      * intros e. split.
        -- intros I. destruct v as [|[|[|[|[|[|]]]]]]; try lia; cbn in I; destruct I as [<-|[<-|[]]]; (split; [reflexivity|]); cbn; do 2 eexists; (split; [reflexivity|]); auto.
        -- intros H. destruct (EB v e H) as (He & _ & _ & I). destruct e as [|[|[|[|[|[|]]]]]]; try lia; cbn in I; destruct I as [<-|[<-|[]]]; cbn; auto.
Qed.
Theorem hole_singular : exists bd J k D, flag_boundary_all hole_mesh = Ok bd /\ jump_matrix hole_mesh hole_geom bd = Ok J /\ AssembleSpec.is_matrix Rring J k k D /\ ~ regular k D.
Proof.
  destruct hole_curves as (part & v0 & v1 & B0 & B1 & P0 & P1 & PC & CC). destruct (normals_exist _ _ _ hole_triangulation) as (n & NO & _).
  exact (several_curves hole_mesh hole_geom hole_pos n hole_triangulation NO hole_manifold part v0 v1 B0 B1 P0 P1 PC CC).
Qed.
Theorem hole_refuted : exists m geom pos, triangulation m geom pos /\ manifold m /\ closed_curves m /\
  exists bd J k D, flag_boundary_all m = Ok bd /\ jump_matrix m geom bd = Ok J /\ AssembleSpec.is_matrix Rring J k k D /\ ~ regular k D.
Proof.
  exists hole_mesh, hole_geom, hole_pos. split; [exact hole_triangulation|]. split; [exact hole_manifold|]. split; [|exact hole_singular].
  destruct hole_curves as (part & v0 & v1 & _ & _ & _ & _ & _ & CC). exact CC.
Qed.
