From Coq Require Import Reals Lra List Arith Lia Bool ZArith.
Import ListNotations.
From Verif Require Import Base MeshModel RefPatModel GeoModel GeoSpec GeoProofs GeoProofs2 GeoProofs3 GeoProofs4.
Local Open Scope R_scope.

Lemma mapM_ok : forall {A B} (f : A -> res B) l l', mapM f l = Ok l' -> Forall2 (fun a b => f a = Ok b) l l'.
Proof.
  induction l as [|a l IH]; cbn; intros l' H; [injection H as <-; constructor|].
  destruct (f a) eqn:E; try discriminate H. cbn [bind] in H.
  destruct (mapM f l) eqn:E'; try discriminate H. injection H as <-. constructor; auto.
Qed.

Lemma child_from_ok : forall g k pts c, child_from g k pts = Ok c ->
  constructed c /\ go_dim c = go_dim g /\ go_kind c = k /\ length pts = num_cols k /\
  forall i x, nth_error pts i = Some x -> Global g x = Ok (col c i).
Proof.
  intros g k pts c H. unfold child_from in H. destruct (mapM (Global g) pts) as [ps| |] eqn:E; try discriminate H.
  cbn [bind] in H. apply mapM_ok in E.
  assert (L : length pts = length ps). { clear H. induction E; cbn; auto. }
  split; [left; eauto|]. destruct (new_geo_inv _ _ _ _ H) as (-> & L').
  split; [reflexivity|]. split; [reflexivity|]. split; [lia|].
  clear H L L'. intros i x Hi. unfold col. cbn [go_cols]. revert i Hi.
  induction E as [|a b l l' Hab E IH]; intros [|i] Hi; cbn in Hi |- *; try discriminate Hi.
  - injection Hi as <-. exact Hab.
  - apply IH, Hi.
Qed.

(** Columns of a child are images of points of the polygon. *)
Definition columns_of (g : geo) (w : list (list R)) (c : geo) : Prop :=
  forall i x, nth_error (control_points (go_kind c)) i = Some x -> Global g (onto w x) = Ok (col c i).

Definition base_facts (g : geo) (codim : nat) (w : list (list R)) (c : geo) : Prop :=
  constructed c /\ go_dim c = go_dim g /\
  (dim_local (go_kind c) + codim = dim_local (go_kind g))%nat /\ num_nodes (kind_el (go_kind c)) = length w /\
  (dim_local (go_kind c) <> 0%nat -> is_o2 (go_kind c) = is_o2 (go_kind g)) /\
  (go_kind c = GParallelogram -> go_kind g = GParallelogram /\
     forall j, nth j (nth 0 w []) 0 + nth j (nth 2 w []) 0 = nth j (nth 1 w []) 0 + nth j (nth 3 w []) 0) /\
  (kind_el (go_kind c) = kQuad -> kind_el (go_kind g) = kQuad) /\
  Forall (fun p => length p = dim_local (go_kind g)) w /\
  columns_of g w c.

Lemma scaled_corners : forall lc poly, scaled lc poly = corners lc poly.
Proof.
  intros. unfold scaled, corners. apply map_ext. intros p. apply map_ext. intros z. unfold Rdiv. ring.
Qed.

Lemma Some_inv : forall {A} (a b : A), Some a = Some b -> a = b.
Proof. congruence. Qed.

Ltac list_eq := repeat match goal with |- _ :: _ = _ :: _ => apply f_equal2 | |- [] = [] => reflexivity end.

(** The points given to [child_from] are the images under [onto w] of the control points. *)
Lemma onto_points : forall k w, length w = num_nodes (kind_el k) ->
  (exists m, (k <> GPoint -> m <> 0%nat) /\ (m <= 2)%nat /\ Forall (fun p => length p = m) w) ->
  map (onto w) (control_points k) =
  w ++ match k with GSegmentO2 => [mid (nth 0 w []) (nth 1 w [])] | GTriaO2 | GQuadO2 => mids w | _ => [] end.
Proof.
  intros k w L (m & M0 & M & F).
  destruct k; cbn [kind_el num_nodes] in L; repeat (destruct w as [|? w]; try discriminate L); clear L;
    repeat match goal with F : Forall _ (_ :: _) |- _ => inversion F; clear F; subst end.
  all: repeat match goal with p : list R |- _ => destruct p as [|? p]; cbn [length] in *; try discriminate; try lia end.
  all: try (exfalso; apply M0; [discriminate|reflexivity]).
  all: cbv [control_points ref_nodes kind_el app map onto on_edge between ref_node num_nodes nth length seq combine
    fold_right fst snd mid mids Nat.add Nat.modulo Nat.divmod Nat.sub]; list_eq; try field.
Qed.

Lemma map_nth_error_inv : forall {A B} (f : A -> B) l i x, nth_error l i = Some x -> nth_error (map f l) i = Some (f x).
Proof. intros. apply map_nth_error. assumption. Qed.

Lemma child_base : forall g lc codim poly c, child g lc codim poly = Ok c ->
  base_facts g codim (corners lc poly) c.
Proof.
  intros g lc codim poly c H. unfold child in H. rewrite scaled_corners in H.
  destruct (forallb (fun p => length p =? dim_local (go_kind g))%nat poly) eqn:Hlen; [|discriminate H]. cbn [verify bind] in H.
  assert (F : Forall (fun p => length p = dim_local (go_kind g)) (corners lc poly)).
  { unfold corners. apply Forall_forall. intros p Hp. apply in_map_iff in Hp. destruct Hp as (q & <- & Hq).
    rewrite map_length. rewrite forallb_forall in Hlen. apply Nat.eqb_eq, Hlen, Hq. }
  assert (Lw : length (corners lc poly) = length poly) by apply map_length.
  set (w := corners lc poly) in *.
  assert (G : forall k pts, child_from g k pts = Ok c -> length w = num_nodes (kind_el k) ->
     (dim_local (go_kind g) <> 0)%nat ->
     pts = w ++ match k with GSegmentO2 => [mid (nth 0 w []) (nth 1 w [])] | GTriaO2 | GQuadO2 => mids w | _ => [] end ->
     (dim_local k + codim = dim_local (go_kind g))%nat ->
     (dim_local k <> 0%nat -> is_o2 k = is_o2 (go_kind g)) ->
     (k = GParallelogram -> go_kind g = GParallelogram /\
     forall j, nth j (nth 0 w []) 0 + nth j (nth 2 w []) 0 = nth j (nth 1 w []) 0 + nth j (nth 3 w []) 0) ->
     (kind_el k = kQuad -> kind_el (go_kind g) = kQuad) ->
     base_facts g codim w c).
  { intros k pts E L D0 Ep Dk O Q KQ. destruct (child_from_ok _ _ _ _ E) as (C & Dc & Kc & _ & Hc).
    unfold base_facts. rewrite Kc. do 8 (split; [assumption || (symmetry; assumption)|]).
    rewrite Ep, <- onto_points in Hc; [|assumption|].
    - unfold columns_of. rewrite Kc. intros i x Hx. apply Hc. apply map_nth_error. exact Hx.
    - exists (dim_local (go_kind g)). split; [auto|]. split; [|exact F]. destruct (go_kind g); cbn; lia. }
  assert (D0 : go_kind g <> GPoint -> (dim_local (go_kind g) <> 0)%nat).
  { intros N. destruct (go_kind g); cbn; try lia. contradiction. }
  destruct (kind_el (go_kind g)) eqn:El; try discriminate H.
  - (* segment *)
    assert (N : go_kind g <> GPoint) by (intros Z; rewrite Z in El; discriminate El). specialize (D0 N).
    assert (D : dim_local (go_kind g) = 1%nat) by (unfold dim_local; rewrite El; reflexivity).
    destruct (Nat.eqb_spec (length poly) (2 - codim)) as [Ln|]; [|discriminate H]. cbn [verify bind] in H.
    rewrite <- Lw in Ln.
    destruct codim as [|[|]]; destruct (is_o2 (go_kind g)) eqn:O; try discriminate H;
      (eapply G; [exact H|exact Ln|exact D0|..]); rewrite ?app_nil_r; try reflexivity; try discriminate;
      rewrite ?D; auto; intros Z; exfalso; apply Z; reflexivity.
  - (* triangle *)
    assert (N : go_kind g <> GPoint) by (intros Z; rewrite Z in El; discriminate El). specialize (D0 N).
    assert (D : dim_local (go_kind g) = 2%nat) by (unfold dim_local; rewrite El; reflexivity).
    destruct (Nat.eqb_spec (length poly) (3 - codim)) as [Ln|]; [|discriminate H]. cbn [verify bind] in H.
    rewrite <- Lw in Ln.
    destruct codim as [|[|[|]]]; destruct (is_o2 (go_kind g)) eqn:O; try discriminate H;
      (eapply G; [exact H|exact Ln|exact D0|..]); rewrite ?app_nil_r; try reflexivity; try discriminate;
      rewrite ?D; auto; intros Z; exfalso; apply Z; reflexivity.
  - (* quadrilateral *)
    assert (N : go_kind g <> GPoint) by (intros Z; rewrite Z in El; discriminate El). specialize (D0 N).
    assert (D : dim_local (go_kind g) = 2%nat) by (unfold dim_local; rewrite El; reflexivity).
    destruct codim as [|[|[|]]]; try discriminate H.
    + destruct (Nat.eqb_spec (length poly) 3) as [Ln|_]; [|destruct (Nat.eqb_spec (length poly) 4) as [Ln|]; [|discriminate H]];
        rewrite <- Lw in Ln.
      * destruct (is_o2 (go_kind g)) eqn:O;
        (eapply G; [exact H|exact Ln|exact D0|..]); rewrite ?app_nil_r; try reflexivity; try discriminate; rewrite ?D; auto.
      * destruct (go_kind g) eqn:K; try discriminate El; cbn [is_o2] in *.
        -- eapply G; [exact H|exact Ln|exact D0|..]; rewrite ?app_nil_r; try reflexivity; try discriminate; auto.
        -- destruct (isParallelogram poly) as [[|]| |] eqn:IP; try discriminate H; cbn [bind] in H.
           ++ eapply G; [exact H|exact Ln|exact D0|..]; rewrite ?app_nil_r; try reflexivity; auto.
              intros _. split; [reflexivity|]. unfold isParallelogram in IP.
              destruct (lf_assert _) as [u0| |]; try discriminate IP. cbn [bind] in IP. 
              unfold w in Ln |- *. unfold corners in Ln |- *. rewrite map_length in Ln.
              destruct poly as [|a [|b [|cc [|d [|]]]]]; try discriminate Ln. injection IP as IP. apply Z.eqb_eq in IP.
              cbn [forallb] in Hlen. rewrite !andb_true_iff, !Nat.eqb_eq in Hlen. cbn in Hlen.
              destruct Hlen as (La & Lb & Lc & Ld & _).
              destruct a as [|a0 [|a1 [|]]]; try discriminate La. destruct b as [|b0 [|b1 [|]]]; try discriminate Lb.
              destruct cc as [|c0 [|c1 [|]]]; try discriminate Lc. destruct d as [|d0 [|d1 [|]]]; try discriminate Ld.
              cbn [nth] in IP.
              assert (SQ : forall p q, (p * p + q * q = 0 -> p = 0 /\ q = 0)%Z) by (intros; nia).
              apply SQ in IP. destruct IP as (S0 & S1).
              intros j. destruct j as [|[|[|j]]]; cbn [map nth]; try lra; unfold Rdiv; rewrite <- !Rmult_plus_distr_r, <- !plus_IZR;
                [replace (a0 + c0)%Z with (b0 + d0)%Z by lia|replace (a1 + c1)%Z with (b1 + d1)%Z by lia]; ring.
           ++ eapply G; [exact H|exact Ln|exact D0|..]; rewrite ?app_nil_r; try reflexivity; try discriminate; auto.
        -- eapply G; [exact H|exact Ln|exact D0|..]; rewrite ?app_nil_r; try reflexivity; try discriminate; auto.
    + destruct (Nat.eqb_spec (length poly) 2) as [Ln|]; [|discriminate H]. cbn [verify bind] in H. rewrite <- Lw in Ln.
      destruct (is_o2 (go_kind g)) eqn:O;
        (eapply G; [exact H|exact Ln|exact D0|..]); rewrite ?app_nil_r; try reflexivity; try discriminate; rewrite ?D; auto.
    + destruct (Nat.eqb_spec (length poly) 1) as [Ln|]; [|discriminate H]. cbn [verify bind] in H. rewrite <- Lw in Ln.
      eapply G; [exact H|exact Ln|exact D0|..]; rewrite ?app_nil_r; try reflexivity; try discriminate; rewrite ?D; auto.
      intros Z; exfalso; apply Z; reflexivity.
Qed.
