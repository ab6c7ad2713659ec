(** Topology of the tensor product meshes. *)
From Coq Require Import Reals Lra List Arith Lia Bool.
Import ListNotations.
From Verif Require Import Base MeshModel MeshSpec MeshView MeshViewProofs RefineSpec GeoModel BuilderModel BuilderSpec
  BuilderProofs BuilderProofs2.

(** The constructors of the geometries. *)
Lemma gtb_spec : forall a b, gtb a b = true <-> (b < a)%R.
Proof. intros. unfold gtb. destruct (Rlt_dec b a); split; intros; auto; discriminate. Qed.
Lemma verify_two : forall b, verify b = Ok tt \/ verify b = Throw.
Proof. intros []; auto. Qed.
Lemma geometry_two : forall t (x : list coords), length (nth 0 x []) = 2 \/ length (nth 0 x []) = 3 ->
  cell_geometry t x = Ok tt \/ cell_geometry t x = Throw.
Proof.
  intros t x H. unfold cell_geometry, check_tria, check_quad. cbv zeta.
  destruct H as [-> | ->]; destruct t; auto;
    repeat match goal with |- (do _ <- verify ?b; _) = _ \/ _ => destruct (verify_two b) as [-> | ->]; cbn [bind]; auto end;
    apply verify_two.
Qed.
Local Open Scope R_scope.
Lemma tria_ok : forall a b c : coords, length a = 2%nat ->
  let e x y := (nth 0 x 0 - nth 0 y 0) ^ 2 + (nth 1 x 0 - nth 1 y 0) ^ 2 in
  let s := tol * (e b a + e c b + e a c) in
  (cell_geometry kTria [a; b; c] = Ok tt <->
   s < e b a /\ s < e c b /\ s < e a c /\
   s < Rabs ((nth 0 b 0 - nth 0 a 0) * (nth 1 c 0 - nth 1 a 0) - (nth 1 b 0 - nth 1 a 0) * (nth 0 c 0 - nth 0 a 0))) /\
  (cell_geometry kTria [a; b; c] = Ok tt \/ cell_geometry kTria [a; b; c] = Throw).
Proof.
  intros a b c L e s. split; [|apply geometry_two; auto].
  unfold cell_geometry. cbn [nth]. rewrite L. unfold check_tria. cbv zeta.
  unfold cross2, vsub. cbn [nth].
  assert (E : forall x y : coords, sqnorm 2 (fun k => nth k x 0 - nth k y 0) = e x y).
  { intros. unfold e, sqnorm, dot. cbn [seq map fold_right]. ring. }
  rewrite !E. fold s.
  rewrite <- !gtb_spec.
  destruct (gtb (e b a) s), (gtb (e c b) s), (gtb (e a c) s); cbn [verify bind];
    try (split; [discriminate|intros (? & ? & ? & ?); discriminate]).
  match goal with |- context [gtb (Rabs ?u) s] => destruct (gtb (Rabs u) s) end; cbn [verify];
    split; auto; try discriminate; intros (? & ? & ? & ?); discriminate.
Qed.
Lemma quad_ok : forall a b c d : coords, length a = 2%nat ->
  let e x y := (nth 0 x 0 - nth 0 y 0) ^ 2 + (nth 1 x 0 - nth 1 y 0) ^ 2 in
  let s := tol * (e b a + e c b + e d c + e a d) in
  (cell_geometry kQuad [a; b; c; d] = Ok tt <->
   s < e b a /\ s < e c b /\ s < e d c /\ s < e a d /\
   s < Rabs ((nth 0 b 0 - nth 0 a 0) * (nth 1 c 0 - nth 1 a 0) - (nth 1 b 0 - nth 1 a 0) * (nth 0 c 0 - nth 0 a 0)) +
       Rabs ((nth 0 d 0 - nth 0 a 0) * (nth 1 c 0 - nth 1 a 0) - (nth 1 d 0 - nth 1 a 0) * (nth 0 c 0 - nth 0 a 0))) /\
  (cell_geometry kQuad [a; b; c; d] = Ok tt \/ cell_geometry kQuad [a; b; c; d] = Throw).
Proof.
  intros a b c d L e s. split; [|apply geometry_two; auto].
  unfold cell_geometry. cbn [nth]. rewrite L. unfold check_quad. cbv zeta.
  unfold cross2, vsub. cbn [nth].
  assert (E : forall x y : coords, sqnorm 2 (fun k => nth k x 0 - nth k y 0) = e x y).
  { intros. unfold e, sqnorm, dot. cbn [seq map fold_right]. ring. }
  rewrite !E. fold s.
  rewrite <- !gtb_spec.
  destruct (gtb (e b a) s), (gtb (e c b) s), (gtb (e d c) s), (gtb (e a d) s); cbn [verify bind];
    try (split; [discriminate|intros (? & ? & ? & ? & ?); discriminate]).
  match goal with |- context [gtb (Rabs ?u + Rabs ?v) s] => destruct (gtb (Rabs u + Rabs v) s) end; cbn [verify];
    split; auto 6; try discriminate; intros (? & ? & ? & ? & ?); discriminate.
Qed.
Local Open Scope nat_scope.

Inductive tag := TH (i j : nat) | TV (i j : nat) | TD (i j : nat).
Lemma tag_dec : forall a b : tag, {a = b} + {a <> b}.
Proof. decide equality; apply Nat.eq_dec. Defined.

Section TP.
Variable p : params.
Hypothesis P : proper p.
Let nx := p_nx p.
Let ny := p_ny p.
Let v := vertex_index p.
Let nv := S ny * S nx.

Definition tp_points : list coords := grid (fun j i => [loc p i j]) (S ny) (S nx).
Lemma tp_points_length : length tp_points = nv.
Proof. unfold tp_points. rewrite (grid_length _ _ 1) by auto. unfold nv. lia. Qed.
Lemma v_lt : forall i j, i <= nx -> j <= ny -> v i j < nv.
Proof. intros. unfold v, vertex_index, nv. fold nx. nia. Qed.
Lemma v_inj : forall i j i' j', i <= nx -> i' <= nx -> v i j = v i' j' -> i = i' /\ j = j'.
Proof. intros i j i' j' Hi Hi' E. unfold v, vertex_index in E. fold nx in E. assert (j = j') by nia. subst. lia. Qed.
Lemma v_onto : forall k, k < nv -> exists i j, i <= nx /\ j <= ny /\ k = v i j.
Proof.
  intros k Hk. exists (k mod S nx), (k / S nx). unfold v, vertex_index. fold nx.
  pose proof (Nat.mod_upper_bound k (S nx)). pose proof (Nat.div_mod k (S nx)).
  assert (k / S nx < S ny) by (apply Nat.div_lt_upper_bound; [lia|unfold nv in Hk; lia]).
  split; [lia|]. split; [lia|]. replace (nx + 1) with (S nx) by lia. lia.
Qed.

Definition pr (t : tag) : nat * nat :=
  match t with
  | TH i j => (v i j, v (i + 1) j)
  | TV i j => (v i j, v i (j + 1))
  | TD i j => (v i j, v (i + 1) (j + 1))
  end.
Definition tag_ok (t : tag) : Prop :=
  match t with
  | TH i j => i < nx /\ j <= ny
  | TV i j => i <= nx /\ j < ny
  | TD i j => i < nx /\ j < ny
  end.
Lemma pr_proper : forall t, tag_ok t -> fst (pr t) <> snd (pr t).
Proof.
  intros [i j|i j|i j] H E; simpl in H, E; apply v_inj in E; lia.
Qed.
Lemma pr_inj : forall t t', tag_ok t -> tag_ok t' -> same_pair (pr t) (pr t') -> t = t'.
Proof.
  intros [i j|i j|i j] [i' j'|i' j'|i' j'] H H' [[E1 E2]|[E1 E2]]; simpl in H, H', E1, E2;
    apply v_inj in E1; try lia; apply v_inj in E2; try lia;
    destruct E1, E2; f_equal; lia.
Qed.

Definition UH : list tag := grid (fun i j => [TH i j]) nx (S ny).
Definition UV : list tag := grid (fun i j => [TV i j]) (S nx) ny.
Definition UD : list tag := grid (fun i j => [TD i j]) nx ny.
Lemma in_UH : forall t, In t UH <-> exists i j, t = TH i j /\ i < nx /\ j <= ny.
Proof.
  intros t. unfold UH. rewrite in_grid. split.
  - intros (i & j & Hi & Hj & [<-|[]]). exists i, j. split; auto. split; lia.
  - intros (i & j & -> & Hi & Hj). exists i, j. simpl. split; [lia|split; [lia|auto]].
Qed.
Lemma in_UV : forall t, In t UV <-> exists i j, t = TV i j /\ i <= nx /\ j < ny.
Proof.
  intros t. unfold UV. rewrite in_grid. split.
  - intros (i & j & Hi & Hj & [<-|[]]). exists i, j. split; auto. split; lia.
  - intros (i & j & -> & Hi & Hj). exists i, j. simpl. split; [lia|split; [lia|auto]].
Qed.
Lemma in_UD : forall t, In t UD <-> exists i j, t = TD i j /\ i < nx /\ j < ny.
Proof.
  intros t. unfold UD. rewrite in_grid. split.
  - intros (i & j & Hi & Hj & [<-|[]]). exists i, j. split; auto.
  - intros (i & j & -> & Hi & Hj). exists i, j. simpl. split; [lia|split; [lia|auto]].
Qed.

Lemma nodup_parts : NoDup UH /\ NoDup UV /\ NoDup UD.
Proof.
  split; [|split]; apply (grid_nodup tag_dec); intros; injection H3; auto.
Qed.
Lemma NoDup_app : forall A (l l' : list A), NoDup l -> NoDup l' -> (forall x, In x l -> ~ In x l') -> NoDup (l ++ l').
Proof.
  induction l as [|x l IH]; simpl; intros l' N N' H; auto. inversion N; subst. constructor.
  - intros I. apply in_app_or in I as [I|I]; [auto|]. apply (H x); auto.
  - apply IH; auto.
Qed.

(** * Triangles *)
Definition U3 : list tag := UH ++ UV ++ UD.
Lemma in_U3 : forall t, In t U3 <-> tag_ok t.
Proof.
  intros t. unfold U3. rewrite !in_app_iff, in_UH, in_UV, in_UD. split.
  - intros [(i & j & -> & H)|[(i & j & -> & H)|(i & j & -> & H)]]; simpl; lia.
  - destruct t as [i j|i j|i j]; simpl; intros H; [left|right; left|right; right]; exists i, j; auto.
Qed.
Lemma U3_nodup : NoDup U3.
Proof.
  destruct nodup_parts as (N1 & N2 & N3). apply NoDup_app; auto.
  - apply NoDup_app; auto. intros t H H'. apply in_UV in H as (i & j & -> & _). apply in_UD in H' as (? & ? & ? & _). discriminate.
  - intros t H H'. apply in_UH in H as (i & j & -> & _). apply in_app_or in H' as [H'|H'].
    + apply in_UV in H' as (? & ? & ? & _). discriminate.
    + apply in_UD in H' as (? & ? & ? & _). discriminate.
Qed.
Lemma U3_length : length U3 = nx * ny + (nx + 1) * ny + nx * (ny + 1).
Proof.
  unfold U3, UH, UV, UD. rewrite !app_length, !(grid_length _ _ 1) by auto. lia.
Qed.

Definition upper (i j : nat) : list nat := [v i j; v (i + 1) (j + 1); v i (j + 1)].
Definition lower (i j : nat) : list nat := [v i j; v (i + 1) j; v (i + 1) (j + 1)].
Definition cells3 : list (list nat) := grid (fun i j => [upper i j; lower i j]) nx ny.
Definition tags3 : list (list tag) := grid (fun i j =>
  [[TD i j; TH i (j + 1); TV i j]; [TH i j; TV (i + 1) j; TD i j]]) nx ny.

Lemma sides3 : Forall2 (fun c ts => length ts = length c /\
  forall j, j < length c -> exists t, nth_error ts j = Some t /\ In t U3 /\ same_pair (pr t) (side c j)) cells3 tags3.
Proof.
  unfold cells3, tags3. apply grid_forall2. intros i j Hi Hj.
  constructor; [|constructor; [|constructor]]; (split; [reflexivity|]);
  intros k Hk; simpl in Hk.
  - destruct k as [|[|[|k]]]; [eexists; split; [reflexivity|]; split; [apply in_U3; simpl; lia|]..|lia].
    + left; split; reflexivity.
    + right; split; reflexivity.
    + right; split; reflexivity.
  - destruct k as [|[|[|k]]]; [eexists; split; [reflexivity|]; split; [apply in_U3; simpl; lia|]..|lia].
    + left; split; reflexivity.
    + left; split; reflexivity.
    + right; split; reflexivity.
Qed.

(** Number of triangles at an edge. *)
Definition count3 (t : tag) : nat :=
  match t with
  | TH i j => b2n (j <? ny) + b2n (1 <=? j)
  | TV i j => b2n (i <? nx) + b2n (1 <=? i)
  | TD i j => 2
  end.
Lemma tag_count_same : forall t i j, count_occ tag_dec [t] (TH i j) = b2n (match t with TH i' j' => (i' =? i) && (j' =? j) | _ => false end)
 /\ count_occ tag_dec [t] (TV i j) = b2n (match t with TV i' j' => (i' =? i) && (j' =? j) | _ => false end)
 /\ count_occ tag_dec [t] (TD i j) = b2n (match t with TD i' j' => (i' =? i) && (j' =? j) | _ => false end).
Proof.
  intros t i j. rewrite !count_occ_one.
  split; [|split]; (destruct (tag_dec _ _) as [->|N]; [rewrite !Nat.eqb_refl; reflexivity|]);
  destruct t; auto; destruct (Nat.eqb_spec i0 i), (Nat.eqb_spec j0 j); subst; simpl; congruence.
Qed.

Lemma split6 : forall a b c d e f : tag, [a; b; c; d; e; f] = [a] ++ [b] ++ [c] ++ [d] ++ [e] ++ [f].
Proof. reflexivity. Qed.

Ltac cgo a b := rewrite (count_grid_one tag_dec _ nx ny _ a b);
  [|intros i j Hi Hj; first [rewrite (proj1 (tag_count_same _ _ _))|rewrite (proj1 (proj2 (tag_count_same _ _ _)))
     |rewrite (proj2 (proj2 (tag_count_same _ _ _)))]].
Ltac cz := rewrite (count_grid_zero tag_dec); [|intros i j Hi Hj [E|[]]; discriminate E].
Ltac bools := repeat match goal with
  | |- context [Nat.eqb ?a ?b] => destruct (Nat.eqb_spec a b)
  | |- context [Nat.ltb ?a ?b] => destruct (Nat.ltb_spec a b)
  | |- context [Nat.leb ?a ?b] => destruct (Nat.leb_spec a b)
  end; cbn [andb orb b2n negb]; auto; try lia.

(** counts of a horizontal tag on the two sides of the grid *)
Lemma count_H : forall a b, count_occ tag_dec (grid (fun i j => [TH i j]) nx ny) (TH a b) = b2n ((a <? nx) && (b <? ny)).
Proof. intros. cgo a b; reflexivity. Qed.
Lemma count_H1 : forall a b, count_occ tag_dec (grid (fun i j => [TH i (j + 1)]) nx ny) (TH a b) =
  b2n ((a <? nx) && ((1 <=? b) && (b <=? ny))).
Proof.
  intros a b. destruct b as [|b].
  - rewrite (count_grid_zero tag_dec); [bools|]. intros i j Hi Hj [E|[]]. injection E; lia.
  - cgo a b; [bools|bools].
Qed.
Lemma count_V : forall a b, count_occ tag_dec (grid (fun i j => [TV i j]) nx ny) (TV a b) = b2n ((a <? nx) && (b <? ny)).
Proof. intros. cgo a b; reflexivity. Qed.
Lemma count_V1 : forall a b, count_occ tag_dec (grid (fun i j => [TV (i + 1) j]) nx ny) (TV a b) =
  b2n (((1 <=? a) && (a <=? nx)) && (b <? ny)).
Proof.
  intros a b. destruct a as [|a].
  - rewrite (count_grid_zero tag_dec); [bools|]. intros i j Hi Hj [E|[]]. injection E; lia.
  - cgo a b; [bools|bools].
Qed.
Lemma count_D : forall a b, count_occ tag_dec (grid (fun i j => [TD i j]) nx ny) (TD a b) = b2n ((a <? nx) && (b <? ny)).
Proof. intros. cgo a b; reflexivity. Qed.

Lemma tags3_count : forall t, tag_ok t -> count_occ tag_dec (concat tags3) t = count3 t.
Proof.
  intros t H. unfold tags3. rewrite grid_concat. cbn [concat app].
  rewrite (grid_ext _ _ (fun i j => [TD i j] ++ [TH i (j + 1)] ++ [TV i j] ++ [TH i j] ++ [TV (i + 1) j] ++ [TD i j]))
    by reflexivity.
  rewrite !count_grid_app.
  destruct t as [a b|a b|a b]; simpl in H; cbn [count3].
  - rewrite count_H1, count_H. repeat cz. bools.
  - rewrite count_V, count_V1. repeat cz. bools.
  - rewrite !count_D. repeat cz. bools.
Qed.

Lemma P' : 1 <= nx /\ 1 <= ny.
Proof. destruct P as (? & ? & _); auto. Qed.

Lemma used3 : forall t, In t U3 -> In t (concat tags3).
Proof.
  intros t H. apply in_U3 in H. apply (count_occ_In tag_dec). rewrite tags3_count by auto.
  pose proof P'. destruct t as [a b|a b|a b]; cbn [count3 tag_ok] in *; bools.
Qed.
Lemma shape3 : forall c, In c cells3 -> length c = 3 \/ length c = 4.
Proof. intros c H. apply in_grid in H as (i & j & Hi & Hj & [<-|[<-|[]]]); auto. Qed.
Lemma nodes3 : forall c k, In c cells3 -> In k c -> k < nv.
Proof.
  intros c k H Hk. apply in_grid in H as (i & j & Hi & Hj & [<-|[<-|[]]]);
  destruct Hk as [<-|[<-|[<-|[]]]]; apply v_lt; lia.
Qed.
Lemma touch3 : forall k, k < nv -> exists c, In c cells3 /\ In k c.
Proof.
  intros k Hk. destruct (v_onto k Hk) as (i & j & Hi & Hj & ->). pose proof P' as [A B].
  destruct (Nat.eq_dec i nx) as [->|Ni].
  - destruct (Nat.eq_dec j ny) as [->|Nj].
    + exists (upper (nx - 1) (ny - 1)). split.
      * apply in_grid. exists (nx - 1), (ny - 1). simpl. split; [lia|split; [lia|auto]].
      * right; left. f_equal; lia.
    + exists (lower (nx - 1) j). split.
      * apply in_grid. exists (nx - 1), j. simpl. split; [lia|split; [lia|auto]].
      * right; left. f_equal; lia.
  - destruct (Nat.eq_dec j ny) as [->|Nj].
    + exists (upper i (ny - 1)). split.
      * apply in_grid. exists i, (ny - 1). simpl. split; [lia|split; [lia|auto]].
      * right; right; left. f_equal; lia.
    + exists (upper i j). split.
      * apply in_grid. exists i, j. simpl. split; [lia|split; [lia|auto]].
      * left; auto.
Qed.

Lemma U3_inj : forall t t', In t U3 -> In t' U3 -> same_pair (pr t) (pr t') -> t = t'.
Proof. intros t t' H H'. apply pr_inj; apply in_U3; auto. Qed.
Lemma U3_proper : forall t, In t U3 -> fst (pr t) <> snd (pr t).
Proof. intros t H. apply pr_proper, in_U3; auto. Qed.

Definition tag_geo (t : tag) : list coords :=
  match t with
  | TH i j => [loc p i j; loc p (i + 1) j]
  | TV i j => [loc p i j; loc p i (j + 1)]
  | TD i j => [loc p i j; loc p (i + 1) (j + 1)]
  end.
Definition geo3 : list (list coords) := grid (fun i j =>
  [[loc p i j; loc p (i + 1) (j + 1); loc p i (j + 1)];
   [loc p i j; loc p (i + 1) j; loc p (i + 1) (j + 1)]]) nx ny.
Definition sites3 : sites := mkSites tp_points (map tag_geo U3) geo3.

Lemma sizes_pos : (0 < x_size p /\ 0 < y_size p)%R.
Proof. destruct P as (_ & _ & X & Y). unfold x_size, y_size. split; apply Rlt_Rminus; auto. Qed.

Lemma h_pos : (0 < hx p /\ 0 < hy p)%R.
Proof.
  destruct sizes_pos as [X Y]. pose proof P' as [A B]. unfold hx, hy. fold nx ny.
  split; apply Rdiv_lt_0_compat; auto; apply lt_0_INR; assumption.
Qed.
Local Open Scope R_scope.
Lemma shape_iff : well_shaped p <->
  tol * (2 * (hx p ^ 2 + hy p ^ 2)) < hx p ^ 2 /\ tol * (2 * (hx p ^ 2 + hy p ^ 2)) < hy p ^ 2.
Proof.
  unfold well_shaped. cbv zeta.
  change ((p_x1 p - p_x0 p) / INR (p_nx p)) with (hx p). change ((p_y1 p - p_y0 p) / INR (p_ny p)) with (hy p).
  unfold tol. set (a := hx p ^ 2). set (b := hy p ^ 2).
  split; intros [U V]; split; lra.
Qed.
Lemma area_clear : well_shaped p -> tol * (2 * (hx p ^ 2 + hy p ^ 2)) < hx p * hy p.
Proof.
  intros W. apply shape_iff in W as [U V]. destruct h_pos as [X Y].
  set (t := tol * (2 * (hx p ^ 2 + hy p ^ 2))) in *.
  assert (T : 0 < t). { unfold t, tol. assert (0 < hx p ^ 2 + hy p ^ 2) by nra. lra. }
  apply Rnot_le_lt. intros F.
  assert (t * t < hx p ^ 2 * hy p ^ 2) by (apply Rmult_le_0_lt_compat; lra).
  assert ((hx p * hy p) * (hx p * hy p) <= t * t) by (apply Rmult_le_compat; nra).
  lra.
Qed.
Lemma loc_x : forall i j, nth 0 (loc p i j) 0 = p_x0 p + INR i * hx p. Proof. reflexivity. Qed.
Lemma loc_y : forall i j, nth 1 (loc p i j) 0 = p_y0 p + INR j * hy p. Proof. reflexivity. Qed.
Lemma step : forall i, INR (i + 1) = INR i + 1. Proof. intros. rewrite plus_INR. reflexivity. Qed.
Lemma upper_clear : forall i j, let x := [loc p i j; loc p (i + 1) (j + 1); loc p i (j + 1)] in
  (well_shaped p -> cell_geometry kTria x = Ok tt) /\ (~ well_shaped p -> cell_geometry kTria x = Throw).
Proof.
  intros i j x. destruct (tria_ok (loc p i j) (loc p (i + 1) (j + 1)) (loc p i (j + 1)) eq_refl) as [E T].
  fold x in E, T. cbv zeta in E. rewrite !loc_x, !loc_y, !step in E.
  set (s := tol * _) in E.
  assert (Es : s = tol * (2 * (hx p ^ 2 + hy p ^ 2))) by (unfold s; ring).
  clearbody s. rewrite Es in E. clear Es s.
  split.
  - intros W. apply E. pose proof (area_clear W) as Ar. apply shape_iff in W as [U V]. destruct h_pos as [X Y].
    assert (0 < hx p ^ 2) by nra. assert (0 < hy p ^ 2) by nra.
    split; [|split; [|split]].
    + apply Rlt_le_trans with (hx p ^ 2 + hy p ^ 2); [lra|apply Req_le; ring].
    + eapply Rlt_le_trans; [exact U|apply Req_le; ring].
    + eapply Rlt_le_trans; [exact V|apply Req_le; ring].
    + eapply Rlt_le_trans; [exact Ar|]. eapply Rle_trans; [|apply Rle_abs]. apply Req_le. ring.
  - intros N. destruct T as [T|T]; auto. exfalso. apply N, shape_iff. apply E in T as (A1 & A2 & A3 & _).
    split; [eapply Rlt_le_trans; [exact A2|apply Req_le; ring]|eapply Rlt_le_trans; [exact A3|apply Req_le; ring]].
Qed.
Lemma lower_clear : well_shaped p -> forall i j,
  cell_geometry kTria [loc p i j; loc p (i + 1) j; loc p (i + 1) (j + 1)] = Ok tt.
Proof.
  intros W i j. destruct (tria_ok (loc p i j) (loc p (i + 1) j) (loc p (i + 1) (j + 1)) eq_refl) as [E T].
  cbv zeta in E. rewrite !loc_x, !loc_y, !step in E.
  set (s := tol * _) in E.
  assert (Es : s = tol * (2 * (hx p ^ 2 + hy p ^ 2))) by (unfold s; ring).
  clearbody s. rewrite Es in E. clear Es s.
  apply E. pose proof (area_clear W) as Ar. apply shape_iff in W as [U V]. destruct h_pos as [X Y].
  assert (0 < hx p ^ 2) by nra. assert (0 < hy p ^ 2) by nra.
  split; [|split; [|split]].
  - eapply Rlt_le_trans; [exact U|apply Req_le; ring].
  - eapply Rlt_le_trans; [exact V|apply Req_le; ring].
  - apply Rlt_le_trans with (hx p ^ 2 + hy p ^ 2); [lra|apply Req_le; ring].
  - eapply Rlt_le_trans; [exact Ar|]. eapply Rle_trans; [|apply Rle_abs]. apply Req_le. ring.
Qed.
Lemma square_clear : forall i j, let x := [loc p i j; loc p (i + 1) j; loc p (i + 1) (j + 1); loc p i (j + 1)] in
  (well_shaped p -> cell_geometry kQuad x = Ok tt) /\ (~ well_shaped p -> cell_geometry kQuad x = Throw).
Proof.
  intros i j x. destruct (quad_ok (loc p i j) (loc p (i + 1) j) (loc p (i + 1) (j + 1)) (loc p i (j + 1)) eq_refl) as [E T].
  fold x in E, T. cbv zeta in E. rewrite !loc_x, !loc_y, !step in E.
  set (s := tol * _) in E.
  assert (Es : s = tol * (2 * (hx p ^ 2 + hy p ^ 2))) by (unfold s; ring).
  clearbody s. rewrite Es in E. clear Es s.
  split.
  - intros W. apply E. pose proof (area_clear W) as Ar. apply shape_iff in W as [U V].
    split; [|split; [|split; [|split]]].
    + eapply Rlt_le_trans; [exact U|apply Req_le; ring].
    + eapply Rlt_le_trans; [exact V|apply Req_le; ring].
    + eapply Rlt_le_trans; [exact U|apply Req_le; ring].
    + eapply Rlt_le_trans; [exact V|apply Req_le; ring].
    + eapply Rlt_le_trans; [exact Ar|]. match goal with |- _ <= ?u + ?v => apply Rle_trans with (u + 0);
        [rewrite Rplus_0_r|apply Rplus_le_compat_l, Rabs_pos] end.
      eapply Rle_trans; [|apply Rle_abs]. apply Req_le. ring.
  - intros N. destruct T as [T|T]; auto. exfalso. apply N, shape_iff. apply E in T as (A1 & A2 & _).
    split; [eapply Rlt_le_trans; [exact A1|apply Req_le; ring]|eapply Rlt_le_trans; [exact A2|apply Req_le; ring]].
Qed.
Local Open Scope nat_scope.

Theorem triag_loops : well_shaped p -> forall check, tp_triag_build p check =
  (do M <- mesh_ctor check nv (map (fun e => (e, true)) (map pr U3)) (map (fun c => (c, true)) cells3);
   Ok (Some (M, sites3))).
Proof.
  intros W check. unfold tp_triag_build. fold nx ny. pose proof P' as [A B]. pose proof sizes_pos as [X Y].
  destruct (Nat.eqb_spec (2 * nx * ny) 0) as [Z0|_]; [nia|].
  destruct (Rle_lt_dec (x_size p) 0) as [ZZ|_]; [exfalso; lra|].
  destruct (Rle_lt_dec (y_size p) 0) as [ZZ|_]; [exfalso; lra|].
  replace ((nx + 1) * (ny + 1)) with (S ny * S nx) by lia. rewrite start_st.
  unfold tp_vertices. fold nx ny. rewrite points_loop. cbn [bind].
  change (grid (fun j i => [loc p i j]) (S ny) (S nx)) with tp_points.
  change (S ny * S nx) with nv. rewrite <- tp_points_length.
  assert (LT : forall i j, i <= nx -> j <= ny -> v i j < length tp_points)
    by (intros; rewrite tp_points_length; apply v_lt; auto).
  unfold triag_horizontal. fold nx ny v.
  rewrite (for_grid_simple _ _ (fun l => st check (length tp_points) tp_points l [])
    (fun i j => [((v i j, v (i + 1) j), [loc p i j; loc p (i + 1) j])])).
  2:{ intros i j l Hi Hj. apply put_edge_ok; apply LT; lia. }
  cbn [bind app]. unfold triag_vertical. fold nx ny v.
  rewrite (for_grid_simple _ _ (fun l => st check (length tp_points) tp_points l [])
    (fun i j => [((v i j, v i (j + 1)), [loc p i j; loc p i (j + 1)])])).
  2:{ intros i j l Hi Hj. apply put_edge_ok; apply LT; lia. }
  cbn [bind app]. unfold triag_diagonal. fold nx ny v.
  rewrite (for_grid_simple _ _ (fun l => st check (length tp_points) tp_points l [])
    (fun i j => [((v i j, v (i + 1) (j + 1)), [loc p i j; loc p (i + 1) (j + 1)])])).
  2:{ intros i j l Hi Hj. apply put_edge_ok; apply LT; lia. }
  cbn [bind app]. unfold triag_cells. fold nx ny v.
  match goal with |- context [st check (length tp_points) tp_points ?E []] => set (EE := E) end.
  rewrite (for_grid_simple _ _ (fun l => st check (length tp_points) tp_points EE l)
    (fun i j => [(upper i j, [loc p i j; loc p (i + 1) (j + 1); loc p i (j + 1)]);
                 (lower i j, [loc p i j; loc p (i + 1) j; loc p (i + 1) (j + 1)])])).
  2:{ intros i j l Hi Hj. rewrite put_cell_ok; auto.
      - cbn [bind]. rewrite put_cell_ok; auto.
        + rewrite <- app_assoc. reflexivity.
        + intros k [<-|[<-|[<-|[]]]]; apply LT; lia.
        + apply lower_clear, W.
      - intros k [<-|[<-|[<-|[]]]]; apply LT; lia.
      - apply (proj1 (upper_clear i j) W). }
  cbn [bind app]. unfold finish, st, build. cbn [b_fac b_geo fst f_check f_nodes f_edges f_cells].
  rewrite tp_points_length. unfold sites3, geo3, cells3.
  assert (E1 : map (fun e => (fst e, true)) EE = map (fun e => (e, true)) (map pr U3)).
  { unfold EE, U3, UH, UV, UD. rewrite !map_app, !grid_map, <- !app_assoc. cbn [map fst]. reflexivity. }
  assert (E2 : map snd EE = map tag_geo U3).
  { unfold EE, U3, UH, UV, UD. rewrite !map_app, !grid_map, <- !app_assoc. cbn [map snd]. reflexivity. }
  rewrite E1, E2, !grid_map. cbn [map fst snd]. reflexivity.
Qed.

(** * Quadrilaterals *)
Definition U4 : list tag := UH ++ UV.
Definition straight (t : tag) : Prop := match t with TD _ _ => False | _ => tag_ok t end.
Lemma in_U4 : forall t, In t U4 <-> straight t.
Proof.
  intros t. unfold U4. rewrite !in_app_iff, in_UH, in_UV. split.
  - intros [(i & j & -> & H)|(i & j & -> & H)]; simpl; lia.
  - destruct t as [i j|i j|i j]; simpl; intros H; [left|right|destruct H]; exists i, j; auto.
Qed.
Lemma straight_ok : forall t, straight t -> tag_ok t.
Proof. intros []; simpl; tauto. Qed.
Lemma U4_nodup : NoDup U4.
Proof.
  destruct nodup_parts as (N1 & N2 & N3). apply NoDup_app; auto.
  intros t H H'. apply in_UH in H as (i & j & -> & _). apply in_UV in H' as (? & ? & ? & _). discriminate.
Qed.
Lemma U4_length : length U4 = (nx + 1) * ny + nx * (ny + 1).
Proof. unfold U4, UH, UV. rewrite !app_length, !(grid_length _ _ 1) by auto. lia. Qed.

Definition square (i j : nat) : list nat := [v i j; v (i + 1) j; v (i + 1) (j + 1); v i (j + 1)].
Definition cells4 : list (list nat) := grid (fun i j => [square i j]) nx ny.
Definition tags4 : list (list tag) := grid (fun i j =>
  [[TH i j; TV (i + 1) j; TH i (j + 1); TV i j]]) nx ny.

Lemma sides4 : Forall2 (fun c ts => length ts = length c /\
  forall j, j < length c -> exists t, nth_error ts j = Some t /\ In t U4 /\ same_pair (pr t) (side c j)) cells4 tags4.
Proof.
  unfold cells4, tags4. apply grid_forall2. intros i j Hi Hj.
  constructor; [|constructor]; (split; [reflexivity|]); intros k Hk; simpl in Hk.
  destruct k as [|[|[|[|k]]]]; [eexists; split; [reflexivity|]; split; [apply in_U4; simpl; lia|]..|lia].
  - left; split; reflexivity.
  - left; split; reflexivity.
  - right; split; reflexivity.
  - right; split; reflexivity.
Qed.

Lemma tags4_count : forall t, straight t -> count_occ tag_dec (concat tags4) t = count3 t.
Proof.
  intros t H. unfold tags4. rewrite grid_concat. cbn [concat app].
  rewrite (grid_ext _ _ (fun i j => [TH i j] ++ [TV (i + 1) j] ++ [TH i (j + 1)] ++ [TV i j]))
    by reflexivity.
  rewrite !count_grid_app.
  destruct t as [a b|a b|a b]; simpl in H; cbn [count3]; [| |destruct H].
  - rewrite count_H1, count_H. repeat cz. bools.
  - rewrite count_V, count_V1. repeat cz. bools.
Qed.
Lemma used4 : forall t, In t U4 -> In t (concat tags4).
Proof.
  intros t H. apply in_U4 in H. apply (count_occ_In tag_dec). rewrite tags4_count by auto.
  pose proof P'. destruct t as [a b|a b|a b]; cbn [count3 tag_ok straight] in *; try tauto; bools.
Qed.
Lemma shape4 : forall c, In c cells4 -> length c = 3 \/ length c = 4.
Proof. intros c H. apply in_grid in H as (i & j & Hi & Hj & [<-|[]]); auto. Qed.
Lemma nodes4 : forall c k, In c cells4 -> In k c -> k < nv.
Proof.
  intros c k H Hk. apply in_grid in H as (i & j & Hi & Hj & [<-|[]]);
  destruct Hk as [<-|[<-|[<-|[<-|[]]]]]; apply v_lt; lia.
Qed.
Lemma touch4 : forall k, k < nv -> exists c, In c cells4 /\ In k c.
Proof.
  intros k Hk. destruct (touch3 k Hk) as (c & Hc & I). apply in_grid in Hc as (i & j & Hi & Hj & C).
  exists (square i j). split; [apply in_grid; exists i, j; simpl; auto|].
  destruct C as [<-|[<-|[]]]; destruct I as [<-|[<-|[<-|[]]]]; simpl; auto.
Qed.
Lemma U4_inj : forall t t', In t U4 -> In t' U4 -> same_pair (pr t) (pr t') -> t = t'.
Proof. intros t t' H H'. apply pr_inj; apply straight_ok, in_U4; auto. Qed.
Lemma U4_proper : forall t, In t U4 -> fst (pr t) <> snd (pr t).
Proof. intros t H. apply pr_proper, straight_ok, in_U4; auto. Qed.

Definition geo4 : list (list coords) := grid (fun i j =>
  [[loc p i j; loc p (i + 1) j; loc p (i + 1) (j + 1); loc p i (j + 1)]]) nx ny.
Definition sites4 : sites := mkSites tp_points [] geo4.

Theorem quad_loops : well_shaped p -> forall check, tp_quad_build p check =
  (do M <- mesh_ctor check nv [] (map (fun c => (c, true)) cells4); Ok (Some (M, sites4))).
Proof.
  intros W check. unfold tp_quad_build. fold nx ny. pose proof P' as [A B]. pose proof sizes_pos as [X Y].
  destruct (Nat.eqb_spec (nx * ny) 0) as [Z0|_]; [nia|].
  destruct (Rle_lt_dec (x_size p) 0) as [ZZ|_]; [exfalso; lra|].
  destruct (Rle_lt_dec (y_size p) 0) as [ZZ|_]; [exfalso; lra|].
  replace ((nx + 1) * (ny + 1)) with (S ny * S nx) by lia. rewrite start_st.
  unfold tp_vertices. fold nx ny. rewrite points_loop. cbn [bind].
  change (grid (fun j i => [loc p i j]) (S ny) (S nx)) with tp_points.
  change (S ny * S nx) with nv. rewrite <- tp_points_length.
  assert (LT : forall i j, i <= nx -> j <= ny -> v i j < length tp_points)
    by (intros; rewrite tp_points_length; apply v_lt; auto).
  unfold quad_cells. fold nx ny v.
  rewrite (for_grid_simple _ _ (fun l => st check (length tp_points) tp_points [] l)
    (fun i j => [(square i j, [loc p i j; loc p (i + 1) j; loc p (i + 1) (j + 1); loc p i (j + 1)])])).
  2:{ intros i j l Hi Hj. rewrite put_cell_ok; auto.
      - intros k [<-|[<-|[<-|[<-|[]]]]]; apply LT; lia.
      - apply (proj1 (square_clear i j) W). }
  cbn [bind app]. unfold finish, st, build. cbn [b_fac b_geo fst f_check f_nodes f_edges f_cells].
  rewrite tp_points_length. unfold sites4, geo4, cells4. cbn [map].
  rewrite !grid_map. cbn [map fst snd]. reflexivity.
Qed.

(** Cells that are too thin are refused. *)
Theorem thin_throw : ~ well_shaped p -> forall check,
  tp_triag_build p check = Throw /\ tp_quad_build p check = Throw.
Proof.
  intros W check. unfold tp_triag_build, tp_quad_build. fold nx ny. pose proof P' as [A B]. pose proof sizes_pos as [X Y].
  destruct (Nat.eqb_spec (2 * nx * ny) 0) as [Z0|_]; [nia|].
  destruct (Nat.eqb_spec (nx * ny) 0) as [Z0|_]; [nia|].
  destruct (Rle_lt_dec (x_size p) 0) as [ZZ|_]; [exfalso; lra|].
  destruct (Rle_lt_dec (y_size p) 0) as [ZZ|_]; [exfalso; lra|].
  replace ((nx + 1) * (ny + 1)) with (S ny * S nx) by lia. rewrite start_st.
  unfold tp_vertices. fold nx ny. rewrite points_loop. cbn [bind].
  change (grid (fun j i => [loc p i j]) (S ny) (S nx)) with tp_points.
  change (S ny * S nx) with nv. rewrite <- tp_points_length.
  assert (LT : forall i j, i <= nx -> j <= ny -> v i j < length tp_points)
    by (intros; rewrite tp_points_length; apply v_lt; auto).
  assert (T3 : forall i j s, i < nx -> j < ny -> (exists E, s = st check (length tp_points) tp_points E []) ->
    put_cell kTria [v i j; v (i + 1) (j + 1); v i (j + 1)] [loc p i j; loc p (i + 1) (j + 1); loc p i (j + 1)] s = Throw).
  { intros i j s Hi Hj [E ->]. apply put_cell_throw; [|apply (proj2 (upper_clear i j)), W].
    intros k [<-|[<-|[<-|[]]]]; apply LT; lia. }
  split.
  - unfold triag_horizontal. fold nx ny v.
    rewrite (for_grid_simple _ _ (fun l => st check (length tp_points) tp_points l [])
      (fun i j => [((v i j, v (i + 1) j), [loc p i j; loc p (i + 1) j])])).
    2:{ intros i j l Hi Hj. apply put_edge_ok; apply LT; lia. }
    cbn [bind app]. unfold triag_vertical. fold nx ny v.
    rewrite (for_grid_simple _ _ (fun l => st check (length tp_points) tp_points l [])
      (fun i j => [((v i j, v i (j + 1)), [loc p i j; loc p i (j + 1)])])).
    2:{ intros i j l Hi Hj. apply put_edge_ok; apply LT; lia. }
    cbn [bind app]. unfold triag_diagonal. fold nx ny v.
    rewrite (for_grid_simple _ _ (fun l => st check (length tp_points) tp_points l [])
      (fun i j => [((v i j, v (i + 1) (j + 1)), [loc p i j; loc p (i + 1) (j + 1)])])).
    2:{ intros i j l Hi Hj. apply put_edge_ok; apply LT; lia. }
    cbn [bind app]. unfold triag_cells. fold nx ny v.
    rewrite (for_grid_throw _ (fun s => exists E, s = st check (length tp_points) tp_points E []) _ nx ny _ 0 0);
      auto; [eauto| |]; intros; [right|]; rewrite T3; auto.
  - unfold quad_cells. fold nx ny v.
    rewrite (for_grid_throw _ (fun s => s = st check (length tp_points) tp_points [] []) _ nx ny _ 0 0); auto.
    + intros i j s Hi Hj ->. right. apply put_cell_throw; [|apply (proj2 (square_clear i j)), W].
      intros k [<-|[<-|[<-|[<-|[]]]]]; apply LT; lia.
    + intros s ->. apply put_cell_throw; [|apply (proj2 (square_clear 0 0)), W].
      intros k [<-|[<-|[<-|[<-|[]]]]]; apply LT; lia.
Qed.
End TP.
