From Coq Require Import List Arith Lia Bool ZArith Reals Permutation Lra.
Import ListNotations.
From Verif Require Import Base MeshModel RefPatModel RefPatSpec.
Local Open Scope Z_scope.

(** * Scaling: lattice constant 6k versus 6 *)
Definition scale (k : Z) : list lpoly -> list lpoly := map (map (map (Z.mul k))).
Definition with_lc (P : pattern) (lc : Z) : pattern := mkPattern (p_el P) (p_pat P) (p_anchor P) lc.

Section Scale.
Variable k : Z.
Notation sc := (map (Z.mul k)).
Lemma t_node_sc : forall i, t_node (k * 6) i = sc (t_node 6 i).
Proof. intros [|[|[|[|i]]]]; unfold t_node; cbn [nth map]; rewrite ?Z.mul_0_r; auto. Qed.
Lemma t_mid_sc : forall i, t_mid (k * 3) i = sc (t_mid 3 i).
Proof. intros [|[|[|[|i]]]]; unfold t_mid; cbn [nth map]; rewrite ?Z.mul_0_r; auto. Qed.
Lemma q_node_sc : forall i, q_node (k * 6) i = sc (q_node 6 i).
Proof. intros [|[|[|[|[|i]]]]]; unfold q_node; cbn [nth map]; rewrite ?Z.mul_0_r; auto. Qed.
Lemma q_mid_sc : forall i, q_mid (k * 3) (k * 6) i = sc (q_mid 3 6 i).
Proof. intros [|[|[|[|[|i]]]]]; unfold q_mid; cbn [nth map]; rewrite ?Z.mul_0_r; auto. Qed.
End Scale.

Lemma scale_polys : forall P k codim, p_lc P = 6 * k ->
  ChildPolygons P codim = match ChildPolygons (with_lc P 6) codim with
                          | Ok l => Ok (scale k l) | Throw => Throw | Assert => Assert end.
Proof.
  intros [t p a lc] k codim H. cbn [p_lc] in H. subst lc.
  assert (E2 : 6 * k / 2 = k * 3). { replace (6 * k) with (k * 3 * 2) by ring. apply Z.div_mul. lia. }
  assert (E3 : 6 * k / 3 = k * 2). { replace (6 * k) with (k * 2 * 3) by ring. apply Z.div_mul. lia. }
  unfold ChildPolygons, with_lc. cbn [p_el p_pat p_anchor p_lc]. rewrite E2, E3.
  change (6 / 2) with 3. change (6 / 3) with 2. rewrite (Z.mul_comm 6 k). clear E2 E3.
  destruct (codim <=? el_dim t)%nat; cbn [bind verify]; auto.
  destruct t.
  - destruct p; auto.
  - destruct codim as [|[|c]]; auto; destruct p; cbn; rewrite ?Z.mul_0_r; auto.
  - destruct codim as [|[|[|c]]]; auto; unfold tria_cells, tria_edges, tria_points, with_anchor;
      destruct p; try reflexivity; try (destruct a as [a|]; [|reflexivity]); cbv zeta;
      rewrite ?t_node_sc, ?t_mid_sc; reflexivity.
  - destruct codim as [|[|[|c]]]; auto; unfold quad_cells, quad_edges, quad_points, with_anchor;
      destruct p; try reflexivity; try (destruct a as [a|]; [|reflexivity]); cbv zeta;
      rewrite ?q_node_sc, ?q_mid_sc; reflexivity.
Qed.

Lemma to_ref_scale : forall k c, k <> 0 -> to_ref (6 * k) (map (Z.mul k) c) = to_ref 6 c.
Proof.
  intros k c Hk. assert (N : forall i, nth i (map (Z.mul k) c) 0 = k * nth i c 0).
  { intros i. rewrite <- (Z.mul_0_r k) at 1. apply map_nth. }
  assert (IZR k <> 0%R) by (apply not_0_IZR; auto).
  unfold to_ref. rewrite !N, !mult_IZR. f_equal; field; auto.
Qed.
Lemma polys_scale : forall k l, k <> 0 -> map (map (to_ref (6 * k))) (scale k l) = map (map (to_ref 6)) l.
Proof.
  intros k l Hk. unfold scale. rewrite map_map. apply map_ext. intros p. rewrite map_map. apply map_ext.
  intros c. apply to_ref_scale. auto.
Qed.

(** Reduction of a statement about all lattice constants to lattice constant 6. *)
Lemma lc6 : forall P k codim l, k > 0 -> p_lc P = 6 * k -> ChildPolygons P codim = Ok l ->
  exists l6, ChildPolygons (with_lc P 6) codim = Ok l6 /\
             map (map (to_ref (p_lc P))) l = map (map (to_ref 6)) l6.
Proof.
  intros P k codim l Hk Hlc H. rewrite (scale_polys P k codim Hlc) in H.
  destruct (ChildPolygons (with_lc P 6) codim) as [l6| |]; try discriminate. inversion H; subst.
  exists l6. split; auto. rewrite Hlc. apply polys_scale. lia.
Qed.

(** * Tiling *)
Local Open Scope R_scope.

Ltac all_constr := repeat (apply Forall_cons || apply Forall_nil); cbv [side fst snd]; lra.
Ltac in_child := first [left; all_constr | right; all_constr].
Ltac split_all l p :=
  lazymatch l with
  | nil => idtac
  | cons [?a; ?b] ?r =>
      let s' := eval cbv [side fst snd] in (side a b p) in
      destruct (Rle_lt_dec 0 s'); split_all r p
  end.
Ltac pick l :=
  lazymatch l with
  | cons ?c ?r =>
      first [exists c; split; [cbn [In]; tauto|unfold in_poly; cbn [sides combine app]; in_child] | pick r]
  end.
Ltac cover t p a :=
  let e := eval vm_compute in (match ChildPolygons (mkPattern t p a 6) 1 with Ok l => l | _ => [] end) in
  let e' := eval cbv [map to_ref nth] in (map (map (to_ref 6)) e) in
  intros [x y]; cbv [in_ref fst snd]; intros Hin; split_all e' (x, y);
  match goal with |- exists q, In q ?L /\ _ => pick L end.
Ltac unforall :=
  repeat match goal with
         | H : Forall _ (_ :: _) |- _ => apply Forall_cons_iff in H as [? H]
         | H : Forall _ [] |- _ => clear H
         end;
  cbv [side fst snd] in *.
Ltac inside :=
  intros poly [x y] Hin Hp; cbn [In] in Hin;
  repeat (destruct Hin as [Hin|Hin]); try contradiction; subst poly;
  unfold in_poly in Hp; cbn [sides combine app] in Hp; destruct Hp as [Hp|Hp]; unforall;
  cbv [in_ref fst snd]; lra.
Ltac enum i Hi :=
  lazymatch type of Hi with
  | nth_error [] _ = _ => destruct i; discriminate
  | _ => destruct i as [|i]; [|cbn [nth_error] in Hi; enum i Hi]; cbn [nth_error] in Hi
  end.
Ltac disjoint :=
  intros i j pa pb [x y] Hi Hj Ha Hb;
  enum i Hi; enum j Hj; try reflexivity; exfalso; injection Hi as <-; injection Hj as <-;
  unfold in_interior in Ha, Hb; cbn [sides combine app] in Ha, Hb;
  destruct Ha as [Ha|Ha], Hb as [Hb|Hb]; unforall; lra.
Ltac conv1 :=
  intros i j Hi Hj N1 N2; cbn [length] in *;
  do 5 (try (destruct i as [|i]; [|try (exfalso; lia)])); do 5 (try (destruct j as [|j]; [|try (exfalso; lia)]));
  cbn in N1, N2; try congruence; cbv [side fst snd nth length Nat.modulo Nat.divmod Nat.sub]; lra.
Ltac convx :=
  intros poly Hin; cbn [In] in Hin;
  repeat (destruct Hin as [Hin|Hin]); try contradiction; subst poly;
  (split; [unfold convex; cbv zeta; first [left; conv1 | right; conv1] | cbn [length]; lia]).
Ltac areas :=
  unfold area; cbn [map sides combine app fold_right]; cbv [fst snd ref_area]; unfold Rabs;
  repeat (match goal with |- context [Rcase_abs ?e] => destruct (Rcase_abs e) end; try (exfalso; lra)); lra.
Ltac tiling t p a :=
  let l := eval vm_compute in (match ChildPolygons (mkPattern t p a 6) 0 with Ok l => l | _ => [] end) in
  let l' := eval cbv [map to_ref nth] in (map (map (to_ref 6)) l) in
  change (tiles t l');
  constructor; [cover t p a | inside | disjoint | convx | areas].

Definition polys6 (t : refel) (p : refpat) (a : option nat) : list (list pt) :=
  match ChildPolygons (mkPattern t p a 6) 0 with Ok l => map (map (to_ref 6)) l | _ => [] end.

Ltac tiling_go :=
  match goal with |- tiles ?t (polys6 ?t ?p ?a) => tiling t p a end.
Lemma tile_tria_copy : forall a, tiles kTria (polys6 kTria rp_copy a).
Proof. intros a. change (tiles kTria (polys6 kTria rp_copy None)). tiling_go. Qed.
Lemma tile_tria_regular : forall a, tiles kTria (polys6 kTria rp_regular a).
Proof. intros a. change (tiles kTria (polys6 kTria rp_regular None)). tiling_go. Qed.
Lemma tile_tria_barycentric : forall a, tiles kTria (polys6 kTria rp_barycentric a).
Proof. intros a. change (tiles kTria (polys6 kTria rp_barycentric None)). tiling_go. Qed.
Ltac anchors3 k H := destruct k as [|[|[|k]]]; [| | |exfalso; cbn in H; lia].
Ltac anchors4 k H := destruct k as [|[|[|[|k]]]]; [| | | |exfalso; cbn in H; lia].
Lemma tile_tria_bisect : forall k, (k < 3)%nat -> tiles kTria (polys6 kTria rp_bisect (Some k)).
Proof. intros k H. anchors3 k H; tiling_go. Qed.
Lemma tile_tria_trisect : forall k, (k < 3)%nat -> tiles kTria (polys6 kTria rp_trisect (Some k)).
Proof. intros k H. anchors3 k H; tiling_go. Qed.
Lemma tile_tria_trisect_left : forall k, (k < 3)%nat -> tiles kTria (polys6 kTria rp_trisect_left (Some k)).
Proof. intros k H. anchors3 k H; tiling_go. Qed.
Lemma tile_tria_quadsect : forall k, (k < 3)%nat -> tiles kTria (polys6 kTria rp_quadsect (Some k)).
Proof. intros k H. anchors3 k H; tiling_go. Qed.
Lemma tile_quad_copy : forall a, tiles kQuad (polys6 kQuad rp_copy a).
Proof. intros a. change (tiles kQuad (polys6 kQuad rp_copy None)). tiling_go. Qed.
Lemma tile_quad_regular : forall a, tiles kQuad (polys6 kQuad rp_regular a).
Proof. intros a. change (tiles kQuad (polys6 kQuad rp_regular None)). tiling_go. Qed.
Lemma tile_quad_bisect : forall k, (k < 4)%nat -> tiles kQuad (polys6 kQuad rp_bisect (Some k)).
Proof. intros k H. anchors4 k H; tiling_go. Qed.
Lemma tile_quad_trisect : forall k, (k < 4)%nat -> tiles kQuad (polys6 kQuad rp_trisect (Some k)).
Proof. intros k H. anchors4 k H; tiling_go. Qed.
Lemma tile_quad_quadsect : forall k, (k < 4)%nat -> tiles kQuad (polys6 kQuad rp_quadsect (Some k)).
Proof. intros k H. anchors4 k H; tiling_go. Qed.
Lemma tile_quad_threeedge : forall k, (k < 4)%nat -> tiles kQuad (polys6 kQuad rp_threeedge (Some k)).
Proof. intros k H. anchors4 k H; tiling_go. Qed.

Theorem tiling6 : forall t p a, (t = kTria \/ t = kQuad) -> p <> rp_nil -> implemented t p = true ->
  good_anchor t p a -> tiles t (polys6 t p a).
Proof.
  intros t p a [->| ->] Hp Hi Ha.
  - destruct p; try contradiction; try discriminate;
      try (destruct a as [k|]; [cbn in Ha|discriminate]).
    all: auto using tile_tria_bisect, tile_tria_trisect, tile_tria_trisect_left, tile_tria_quadsect,
      tile_tria_copy, tile_tria_regular, tile_tria_barycentric.
  - destruct p; try contradiction; try discriminate;
      try (destruct a as [k|]; [cbn in Ha|discriminate]).
    all: auto using tile_quad_copy, tile_quad_regular, tile_quad_bisect, tile_quad_trisect,
      tile_quad_quadsect, tile_quad_threeedge.
    + apply (tile_quad_bisect k Ha).
    + apply (tile_quad_regular a).
Qed.
