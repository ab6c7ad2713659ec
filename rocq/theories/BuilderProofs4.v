(** Geometry of the tensor product meshes and the theorems about them. *)
From Coq Require Import Reals Lra List Arith Lia Bool.
Import ListNotations.
From Verif Require Import Base MeshModel MeshSpec MeshView MeshProofs5 MeshViewProofs RefineSpec BuilderModel BuilderSpec
  BuilderProofs BuilderProofs2 BuilderProofs3.

Lemma grid_nth_inv : forall X (f : nat -> nat -> list X) c n m k x,
  (forall i j, length (f i j) = c) -> nth_error (grid f n m) k = Some x ->
  exists i j r, i < n /\ j < m /\ k = (i * m + j) * c + r /\ nth_error (f i j) r = Some x.
Proof.
  intros X f c n m k x Hc. revert k. induction n; intros k H.
  - simpl in H. destruct k; discriminate.
  - rewrite grid_S in H. destruct (Nat.lt_ge_cases k (length (grid f n m))) as [L|L].
    + rewrite nth_error_app1 in H by auto. destruct (IHn k H) as (i & j & r & ? & ? & ? & ?).
      exists i, j, r. split; auto.
    + rewrite nth_error_app2 in H by auto. rewrite (grid_length _ _ c) in * by auto.
      assert (G : forall g q k', (forall j, length (g j) = c) -> nth_error (flat_map g (seq 0 q)) k' = Some x ->
        exists j r, j < q /\ k' = j * c + r /\ nth_error (g j) r = Some x).
      { clear. intros g. induction q; intros k' Hg H; [destruct k'; discriminate|].
        rewrite flat_map_S in H. destruct (Nat.lt_ge_cases k' (length (flat_map g (seq 0 q)))) as [L|L].
        - rewrite nth_error_app1 in H by auto. destruct (IHq k' Hg H) as (j & r & ? & ? & ?). exists j, r; auto.
        - rewrite nth_error_app2 in H by auto. rewrite (flat_map_const_length _ _ c) in * by auto.
          exists q, (k' - q * c). split; [lia|]. split; [lia|auto]. }
      destruct (G (f n) m _ (Hc n) H) as (j & r & Hj & E & Hr).
      exists n, j, r. split; [lia|]. split; auto. split; auto. nia.
Qed.

Section Geo.
Variable p : params.
Hypothesis P : proper p.
Let nx := p_nx p.
Let ny := p_ny p.
Local Open Scope R_scope.

Lemma nx_pos : 0 < INR nx /\ 0 < INR ny.
Proof. destruct P as (A & B & _). split; apply lt_0_INR; unfold nx, ny; lia. Qed.
Lemma h_pos : 0 < hx p /\ 0 < hy p.
Proof.
  destruct (sizes_pos p P), nx_pos. unfold hx, hy. fold nx ny. split; apply Rdiv_lt_0_compat; auto.
Qed.
Lemma hx_full : INR nx * hx p = p_x1 p - p_x0 p.
Proof. destruct nx_pos. unfold hx, x_size. fold nx. field. lra. Qed.
Lemma hy_full : INR ny * hy p = p_y1 p - p_y0 p.
Proof. destruct nx_pos. unfold hy, y_size. fold ny. field. lra. Qed.

Lemma loc_grid : forall i j, loc p i j = grid_point p i j.
Proof. reflexivity. Qed.

(** Local coordinates in the rectangle (i,j). *)
Definition at_ (i j : nat) (s t x y : R) : Prop :=
  x = p_x0 p + (INR i + s) * hx p /\ y = p_y0 p + (INR j + t) * hy p.

Lemma three : forall (ws : list R), length ws = 3%nat -> exists a b c, ws = [a; b; c].
Proof. intros [|a [|b [|c [|d ws]]]]; try discriminate; eauto. Qed.
Lemma four : forall (ws : list R), length ws = 4%nat -> exists a b c d, ws = [a; b; c; d].
Proof. intros [|a [|b [|c [|d [|e ws]]]]]; try discriminate; eauto 6. Qed.

Lemma INR1 : forall i, INR (i + 1) = INR i + 1.
Proof. intros. rewrite plus_INR. reflexivity. Qed.

Lemma upper_hull : forall ok i j x y,
  hull ok [loc p i j; loc p (i + 1) (j + 1); loc p i (j + 1)] x y <->
  exists s t, at_ i j s t x y /\ ok s /\ ok (t - s) /\ ok (1 - t).
Proof.
  intros ok i j x y. unfold hull, at_. split.
  - intros (ws & L & F & S1 & X & Y). destruct (three ws L) as (a & b & c & ->).
    inversion F as [|? ? Fa F1]; subst. inversion F1 as [|? ? Fb F2]; subst. inversion F2 as [|? ? Fc F3]; subst.
    unfold weighted, loc, sumR in *. simpl in *. rewrite !INR1 in *.
    exists b, (b + c). split; [split|].
    + replace a with (1 - b - c) by lra. ring.
    + replace a with (1 - b - c) by lra. ring.
    + replace (b + c - b) with c by ring. replace (1 - (b + c)) with a by lra. auto.
  - intros (s & t & [X Y] & A & B & C). exists [1 - t; s; t - s].
    split; auto. split; [repeat constructor; auto|]. unfold weighted, loc, sumR. simpl. rewrite !INR1.
    split; [ring|]. split; [rewrite X; ring|rewrite Y; ring].
Qed.
Lemma lower_hull : forall ok i j x y,
  hull ok [loc p i j; loc p (i + 1) j; loc p (i + 1) (j + 1)] x y <->
  exists s t, at_ i j s t x y /\ ok t /\ ok (s - t) /\ ok (1 - s).
Proof.
  intros ok i j x y. unfold hull, at_. split.
  - intros (ws & L & F & S1 & X & Y). destruct (three ws L) as (a & b & c & ->).
    inversion F as [|? ? Fa F1]; subst. inversion F1 as [|? ? Fb F2]; subst. inversion F2 as [|? ? Fc F3]; subst.
    unfold weighted, loc, sumR in *. simpl in *. rewrite !INR1 in *.
    exists (b + c), c. split; [split|].
    + replace a with (1 - b - c) by lra. ring.
    + replace a with (1 - b - c) by lra. ring.
    + replace (b + c - c) with b by ring. replace (1 - (b + c)) with a by lra. auto.
  - intros (s & t & [X Y] & A & B & C). exists [1 - s; s - t; t].
    split; auto. split; [repeat constructor; auto|]. unfold weighted, loc, sumR. simpl. rewrite !INR1.
    split; [ring|]. split; [rewrite X; ring|rewrite Y; ring].
Qed.
Lemma square_hull : forall i j x y,
  (covers [loc p i j; loc p (i + 1) j; loc p (i + 1) (j + 1); loc p i (j + 1)] x y <->
   exists s t, at_ i j s t x y /\ 0 <= s <= 1 /\ 0 <= t <= 1) /\
  (covers_inside [loc p i j; loc p (i + 1) j; loc p (i + 1) (j + 1); loc p i (j + 1)] x y ->
   exists s t, at_ i j s t x y /\ 0 < s < 1 /\ 0 < t < 1).
Proof.
  intros i j x y. split; [split|].
  - intros (ws & L & F & S1 & X & Y). destruct (four ws L) as (a & b & c & d & ->).
    inversion F as [|? ? Fa F1]; subst. inversion F1 as [|? ? Fb F2]; subst.
    inversion F2 as [|? ? Fc F3]; subst. inversion F3 as [|? ? Fd F4]; subst.
    unfold weighted, loc, sumR in *. simpl in *. rewrite !INR1 in *.
    exists (b + c), (c + d). split; [split|lra].
    + replace a with (1 - b - c - d) by lra. ring.
    + replace a with (1 - b - c - d) by lra. ring.
  - intros (s & t & [X Y] & A & B).
    exists [(1 - s) * (1 - t); s * (1 - t); s * t; (1 - s) * t].
    split; auto. split.
    + repeat (apply Forall_cons; [apply Rmult_le_pos; lra|]); apply Forall_nil.
    + unfold weighted, loc, sumR. simpl. rewrite !INR1.
      split; [ring|]. split; [rewrite X; ring|rewrite Y; ring].
  - intros (ws & L & F & S1 & X & Y). destruct (four ws L) as (a & b & c & d & ->).
    inversion F as [|? ? Fa F1]; subst. inversion F1 as [|? ? Fb F2]; subst.
    inversion F2 as [|? ? Fc F3]; subst. inversion F3 as [|? ? Fd F4]; subst.
    unfold weighted, loc, sumR in *. simpl in *. rewrite !INR1 in *.
    exists (b + c), (c + d). split; [split|lra].
    + replace a with (1 - b - c - d) by lra. ring.
    + replace a with (1 - b - c - d) by lra. ring.
Qed.

Lemma column : forall n h z, (1 <= n)%nat -> 0 < h -> 0 <= z <= INR n * h ->
  exists i s, (i < n)%nat /\ 0 <= s <= 1 /\ z = (INR i + s) * h.
Proof.
  induction n as [|n IH]; intros h z Hn Hh Hz; [lia|].
  destruct (Rle_lt_dec z (INR n * h)) as [A|A].
  - destruct n as [|n].
    + exists 0%nat, 0. split; [lia|]. split; [lra|]. simpl in *. lra.
    + destruct (IH h z) as (i & s & ? & ? & ?); [lia|auto|lra|]. exists i, s. split; [lia|auto].
  - exists n, (z / h - INR n). split; [lia|]. rewrite S_INR in Hz.
    assert (E : z = z / h * h) by (field; lra).
    assert (INR n < z / h <= INR n + 1).
    { split.
      - apply Rmult_lt_reg_r with h; auto. rewrite <- E. auto.
      - apply Rmult_le_reg_r with h; auto. rewrite <- E. lra. }
    split; [lra|]. rewrite E at 1. ring.
Qed.
Lemma same_column : forall i i' s s', 0 < s < 1 -> 0 < s' < 1 -> INR i + s = INR i' + s' -> i = i'.
Proof.
  intros i i' s s' A B E. destruct (Nat.lt_trichotomy i i') as [L|[L|L]]; auto; exfalso.
  - apply le_INR in L. rewrite S_INR in L. lra.
  - apply le_INR in L. rewrite S_INR in L. lra.
Qed.
Lemma at_inj : forall i j s t i' j' s' t' x y, at_ i j s t x y -> at_ i' j' s' t' x y ->
  0 < s < 1 -> 0 < t < 1 -> 0 < s' < 1 -> 0 < t' < 1 -> i = i' /\ j = j' /\ s = s' /\ t = t'.
Proof.
  intros i j s t i' j' s' t' x y [X Y] [X' Y'] A B A' B'. destruct h_pos as [Hx Hy].
  assert (E1 : INR i + s = INR i' + s') by (apply Rmult_eq_reg_r with (hx p); lra).
  assert (E2 : INR j + t = INR j' + t') by (apply Rmult_eq_reg_r with (hy p); lra).
  assert (i = i') by (eapply same_column; [| |exact E1]; auto). assert (j = j') by (eapply same_column; [| |exact E2]; auto).
  subst. split; auto. split; auto. lra.
Qed.
Lemma at_exists : forall x y, p_x0 p <= x <= p_x1 p -> p_y0 p <= y <= p_y1 p ->
  exists i j s t, (i < nx)%nat /\ (j < ny)%nat /\ 0 <= s <= 1 /\ 0 <= t <= 1 /\ at_ i j s t x y.
Proof.
  intros x y X Y. destruct P as (A & B & _). destruct h_pos as [Hx Hy].
  destruct (column nx (hx p) (x - p_x0 p)) as (i & s & Hi & Hs & Ei); auto; [rewrite hx_full; lra|].
  destruct (column ny (hy p) (y - p_y0 p)) as (j & t & Hj & Ht & Ej); auto; [rewrite hy_full; lra|].
  exists i, j, s, t. repeat (split; [auto; fail|]). unfold at_. lra.
Qed.
Lemma at_inside : forall i j s t x y, (i < nx)%nat -> (j < ny)%nat -> 0 <= s <= 1 -> 0 <= t <= 1 -> at_ i j s t x y ->
  p_x0 p <= x <= p_x1 p /\ p_y0 p <= y <= p_y1 p.
Proof.
  intros i j s t x y Hi Hj Hs Ht [X Y]. destruct h_pos as [Hx Hy]. pose proof hx_full. pose proof hy_full.
  apply le_INR in Hi, Hj. rewrite S_INR in Hi, Hj. pose proof (pos_INR i). pose proof (pos_INR j).
  assert (A : 0 <= (INR i + s) * hx p) by (apply Rmult_le_pos; lra).
  assert (B : (INR i + s) * hx p <= INR nx * hx p) by (apply Rmult_le_compat_r; lra).
  assert (A' : 0 <= (INR j + t) * hy p) by (apply Rmult_le_pos; lra).
  assert (B' : (INR j + t) * hy p <= INR ny * hy p) by (apply Rmult_le_compat_r; lra).
  lra.
Qed.

Lemma tiles3 : tiles p (geo3 p).
Proof.
  unfold geo3. fold nx ny. split; [|split].
  - intros x y X Y. destruct (at_exists x y X Y) as (i & j & s & t & Hi & Hj & Hs & Ht & A).
    destruct (Rle_lt_dec s t) as [L|L].
    + eexists. split; [apply in_grid; exists i, j; split; [auto|split; [auto|left; reflexivity]]|].
      apply upper_hull. exists s, t. split; auto. lra.
    + eexists. split; [apply in_grid; exists i, j; split; [auto|split; [auto|right; left; reflexivity]]|].
      apply lower_hull. exists s, t. split; auto. lra.
  - intros cs x y H C. apply in_grid in H as (i & j & Hi & Hj & [<-|[<-|[]]]).
    + apply upper_hull in C as (s & t & A & ? & ? & ?). apply (at_inside i j s t); auto; lra.
    + apply lower_hull in C as (s & t & A & ? & ? & ?). apply (at_inside i j s t); auto; lra.
  - intros k l cs cs' x y Hk Hl C C'.
    apply grid_nth_inv with (c := 2%nat) in Hk as (i & j & r & Hi & Hj & -> & Hr); auto.
    apply grid_nth_inv with (c := 2%nat) in Hl as (i' & j' & r' & Hi' & Hj' & -> & Hr'); auto.
    assert (G : forall i j r cs, nth_error
      [[loc p i j; loc p (i + 1) (j + 1); loc p i (j + 1)]; [loc p i j; loc p (i + 1) j; loc p (i + 1) (j + 1)]] r = Some cs ->
      covers_inside cs x y -> exists s t, at_ i j s t x y /\ 0 < s < 1 /\ 0 < t < 1 /\ 
        ((r = 0%nat /\ s < t) \/ (r = 1%nat /\ t < s))).
    { clear. intros i j [|[|r]] cs E H; simpl in E; [| |destruct r; discriminate]; injection E as <-.
      - apply upper_hull in H as (s & t & A & ? & ? & ?). exists s, t. repeat (split; [auto; lra|]). left; split; [auto|lra].
      - apply lower_hull in H as (s & t & A & ? & ? & ?). exists s, t. repeat (split; [auto; lra|]). right; split; [auto|lra]. }
    destruct (G _ _ _ _ Hr C) as (s & t & A & B1 & B2 & B3).
    destruct (G _ _ _ _ Hr' C') as (s' & t' & A' & B1' & B2' & B3').
    destruct (at_inj _ _ _ _ _ _ _ _ _ _ A A') as (-> & -> & -> & ->); auto.
    assert (r = r') by (destruct B3 as [[-> ?]|[-> ?]], B3' as [[-> ?]|[-> ?]]; auto; lra). subst; auto.
Qed.

Lemma tiles4 : tiles p (geo4 p).
Proof.
  unfold geo4. fold nx ny. split; [|split].
  - intros x y X Y. destruct (at_exists x y X Y) as (i & j & s & t & Hi & Hj & Hs & Ht & A).
    eexists. split; [apply in_grid; exists i, j; split; [auto|split; [auto|left; reflexivity]]|].
    apply square_hull. exists s, t. auto.
  - intros cs x y H C. apply in_grid in H as (i & j & Hi & Hj & [<-|[]]).
    apply square_hull in C as (s & t & A & ? & ?). apply (at_inside i j s t); auto; lra.
  - intros k l cs cs' x y Hk Hl C C'.
    apply grid_nth_inv with (c := 1%nat) in Hk as (i & j & r & Hi & Hj & -> & Hr); auto.
    apply grid_nth_inv with (c := 1%nat) in Hl as (i' & j' & r' & Hi' & Hj' & -> & Hr'); auto.
    destruct r as [|r]; [|destruct r; discriminate]. destruct r' as [|r']; [|destruct r'; discriminate].
    injection Hr as <-. injection Hr' as <-.
    apply square_hull in C as (s & t & A & B1 & B2). apply square_hull in C' as (s' & t' & A' & B1' & B2').
    destruct (at_inj _ _ _ _ _ _ _ _ _ _ A A') as (-> & -> & -> & ->); auto.
Qed.

Lemma areas3 : forall cs, In cs (geo3 p) -> signed_area cs = hx p * hy p / 2.
Proof.
  intros cs H. apply in_grid in H as (i & j & Hi & Hj & [<-|[<-|[]]]);
  unfold signed_area, area2, loc; simpl; rewrite !INR1; field.
Qed.
Lemma areas4 : forall cs, In cs (geo4 p) -> signed_area cs = hx p * hy p.
Proof.
  intros cs H. apply in_grid in H as (i & j & Hi & Hj & [<-|[]]).
  unfold signed_area, area2, loc; simpl; rewrite !INR1; field.
Qed.

Lemma tp_place : forall i j, (i <= nx)%nat -> (j <= ny)%nat ->
  nth_error (tp_points p) (vertex_index p i j) = Some (loc p i j).
Proof.
  intros i j Hi Hj. unfold tp_points, vertex_index. fold nx ny.
  replace (nx + 1)%nat with (S nx) by lia.
  rewrite (grid_nth _ (fun j i => loc p i j)); auto; lia.
Qed.
Lemma place_ok : forall g i j, g_points g = tp_points p -> (i <= nx)%nat -> (j <= ny)%nat ->
  place g (vertex_index p i j) = loc p i j.
Proof.
  intros g i j E Hi Hj. unfold place. rewrite E.
  apply nth_error_nth. apply tp_place; auto.
Qed.

(** The sides of the rectangle in terms of columns and rows. *)
Lemma left_side : forall i, p_x0 p + INR i * hx p = p_x0 p <-> i = 0%nat.
Proof.
  intros i. destruct h_pos as [Hx Hy]. split.
  - intros E. apply INR_eq. simpl. apply Rmult_eq_reg_r with (hx p); lra.
  - intros ->. simpl. lra.
Qed.
Lemma right_side : forall i, p_x0 p + INR i * hx p = p_x1 p <-> i = nx.
Proof.
  intros i. destruct h_pos as [Hx Hy]. pose proof hx_full. split.
  - intros E. apply INR_eq. apply Rmult_eq_reg_r with (hx p); lra.
  - intros ->. lra.
Qed.
Lemma lower_side : forall i, p_y0 p + INR i * hy p = p_y0 p <-> i = 0%nat.
Proof.
  intros i. destruct h_pos as [Hx Hy]. split.
  - intros E. apply INR_eq. simpl. apply Rmult_eq_reg_r with (hy p); lra.
  - intros ->. simpl. lra.
Qed.
Lemma upper_side : forall i, p_y0 p + INR i * hy p = p_y1 p <-> i = ny.
Proof.
  intros i. destruct h_pos as [Hx Hy]. pose proof hy_full. split.
  - intros E. apply INR_eq. apply Rmult_eq_reg_r with (hy p); lra.
  - intros ->. lra.
Qed.
Local Open Scope nat_scope.

Lemma common_side : forall i j i' j', on_common_side p (loc p i j) (loc p i' j') <->
  (i = 0 /\ i' = 0) \/ (i = nx /\ i' = nx) \/ (j = 0 /\ j' = 0) \/ (j = ny /\ j' = ny).
Proof.
  intros. unfold on_common_side, loc. cbn [nth].
  rewrite !left_side, !right_side, !lower_side, !upper_side. tauto.
Qed.
Lemma common_side_sym : forall a b, on_common_side p a b -> on_common_side p b a.
Proof. unfold on_common_side. tauto. Qed.

Lemma boundary_count : forall g t a b, g_points g = tp_points p -> tag_ok p t -> same_pair (a, b) (pr p t) ->
  (count3 p t = 1 \/ count3 p t = 2) /\ (count3 p t = 1 <-> on_common_side p (place g a) (place g b)).
Proof.
  intros g t a b Hg Ht HS.
  assert (E : (count3 p t = 1 \/ count3 p t = 2) /\ (count3 p t = 1 <->
      on_common_side p (place g (fst (pr p t))) (place g (snd (pr p t))))).
  { destruct P as (A & B & _). fold nx in A. fold ny in B.
    destruct t as [i j|i j|i j]; cbn [pr fst snd]; cbn [tag_ok] in Ht; fold nx ny in Ht;
    rewrite !place_ok by (auto; lia); rewrite common_side; cbn [count3]; fold nx ny.
    - destruct (Nat.ltb_spec j ny), (Nat.leb_spec 1 j); cbn [b2n]; lia.
    - destruct (Nat.ltb_spec i nx), (Nat.leb_spec 1 i); cbn [b2n]; lia.
    - lia. }
  destruct E as [E1 E2]. split; auto. rewrite E2.
  destruct HS as [[H1 H2]|[H1 H2]]; cbn [fst snd] in H1, H2; subst; split; auto using common_side_sym.
Qed.

Lemma filter_len : forall (l : list (list nat)) k b, (forall c, In c l -> length c = k) ->
  length (filter (fun x => length (fst x) =? k) (map (fun c => (c, b : bool)) l)) = length l /\
  forall k', k' <> k -> length (filter (fun x => length (fst x) =? k') (map (fun c => (c, b : bool)) l)) = 0.
Proof.
  induction l as [|c l IH]; intros k b H; simpl; auto.
  destruct (IH k b) as [I1 I2]; [intros; apply H; simpl; auto|].
  rewrite (H c) by (simpl; auto). rewrite Nat.eqb_refl. simpl. split; [lia|].
  intros k' Hk. destruct (Nat.eqb_spec k k'); [congruence|auto].
Qed.

Theorem triag_mesh : well_shaped p -> forall check, exists M g,
  tp_triag_build p check = Ok (Some (M, g)) /\ (exists h, built check h M) /\
  num_entities 2 M = (nx + 1) * (ny + 1) /\
  num_entities 1 M = nx * ny + (nx + 1) * ny + nx * (ny + 1) /\
  num_entities_of_type kTria M = 2 * nx * ny /\ num_entities_of_type kQuad M = 0 /\
  (forall i j, i <= nx -> j <= ny -> nth_error (g_points g) (i + j * (nx + 1)) = Some (grid_point p i j)) /\
  geometry_matches M g /\ length (g_edges g) = num_entities 1 M /\
  (forall cs, In cs (g_cells g) -> signed_area cs =
     ((p_x1 p - p_x0 p) / INR nx * ((p_y1 p - p_y0 p) / INR ny) / 2)%R) /\
  tiles p (g_cells g) /\
  (forall e a b, nth_error (mv_edges (view M)) e = Some (a, b) ->
     (adjacent (view M) e = 1 \/ adjacent (view M) e = 2) /\
     (adjacent (view M) e = 1 <-> on_common_side p (place g a) (place g b))).
Proof.
  intros W check. rewrite (triag_loops p P W). fold nx ny.
  destruct (tagged_built (S ny * S nx) (cells3 p) (pr p) (U3 p) (U3 p) (tags3 p)
    (shape3 p) (nodes3 p) (sides3 p) (U3_proper p) (U3_inj p) (used3 p P) (fun x H => H) (U3_nodup p) (touch3 p P) check)
    as (M & C & B).
  rewrite C. cbn [bind]. exists M, (sites3 p). split; auto. split; [eauto|].
  pose proof (tagged_nodes (S ny * S nx) (cells3 p) (pr p) (U3 p) (shape3 p) check M B) as [N1 N2].
  pose proof (tagged_count (S ny * S nx) (cells3 p) (pr p) (U3 p) (U3 p) (tags3 p)
    (shape3 p) (sides3 p) (U3_inj p) (U3_nodup p) (used3 p P) (fun x H => H) check M B) as NE.
  destruct (view_counts check _ M B) as (V1 & V2 & V3).
  pose proof (numbering check _ M B) as (_ & NT & NQ & _).
  rewrite raw_cells in NT, NQ by apply shape3.
  assert (L3 : forall c, In c (cells3 p) -> length c = 3).
  { intros c H. apply in_grid in H as (i & j & ? & ? & [<-|[<-|[]]]); reflexivity. }
  assert (LC : length (cells3 p) = 2 * nx * ny) by (unfold cells3; rewrite (grid_length _ _ 2) by auto; fold nx ny; lia).
  split; [rewrite <- V1, N1; lia|]. rewrite (U3_length p) in NE. fold nx ny in NE.
  split; [rewrite <- V2, NE; auto|].
  split; [rewrite NT, (proj1 (filter_len _ _ true L3)), LC; auto|].
  split; [rewrite NQ, (proj2 (filter_len _ _ true L3)); auto|].
  split.
  { intros i j Hi Hj. rewrite <- loc_grid. apply tp_place; auto. }
  split.
  { split; [|split; [|split]].
    - rewrite N1. cbn [sites3 g_points]. apply tp_points_length.
    - cbn [sites3 g_cells]. rewrite <- (map_length cv_nodes (mv_cells (view M))), N2, LC.
      unfold geo3. rewrite (grid_length _ _ 2) by auto. fold nx ny. lia.
    - intros k c cs Hk Hcs. cbn [sites3 g_cells] in Hcs.
      assert (Hc : nth_error (cells3 p) k = Some (cv_nodes c)) by (rewrite <- N2, nth_error_map, Hk; reflexivity).
      apply grid_nth_inv with (c := 2) in Hcs as (i & j & r & Hi & Hj & -> & Hr); auto.
      apply grid_nth_inv with (c := 2) in Hc as (i' & j' & r' & Hi' & Hj' & E & Hr'); auto.
      assert (Lr : r < 2) by (change 2 with (length [[loc p i j; loc p (i + 1) (j + 1); loc p i (j + 1)]; [loc p i j; loc p (i + 1) j; loc p (i + 1) (j + 1)]]); apply nth_error_Some; congruence).
      assert (Lr' : r' < 2) by (change 2 with (length [upper p i' j'; lower p i' j']); apply nth_error_Some; congruence).
      fold nx ny in Hi, Hj, Hi', Hj', E.
      assert (E2 : i * ny + j = i' * ny + j' /\ r = r') by lia. destruct E2 as [E2 ->].
      assert (i = i') by nia. subst i'. assert (j = j') by lia. subst j'.
      destruct r' as [|[|r']]; [| |lia]; cbn [nth_error] in Hr, Hr'; injection Hr as <-; injection Hr' as <-;
      cbn [upper lower map]; rewrite !place_ok by (auto; lia); auto.
    - intros k a b cs Hk Hcs. cbn [sites3 g_edges] in Hcs. rewrite nth_error_map in Hcs.
      destruct (nth_error (U3 p) k) as [t|] eqn:Et; [|discriminate]. injection Hcs as <-.
      pose proof (tagged_supplied (S ny * S nx) (cells3 p) (pr p) (U3 p) (shape3 p) check M B k t Et) as Hs.
      assert (Hp : pr p t = (a, b)) by congruence.
      apply nth_error_In, in_U3 in Et. destruct t as [i j|i j|i j]; cbn [pr] in Hp; injection Hp as <- <-;
      cbn [tag_ok] in Et; fold nx ny in Et; cbn [tag_geo]; rewrite !place_ok by (auto; lia); auto. }
  split; [cbn [sites3 g_edges]; rewrite map_length, (U3_length p), <- V2, NE; auto|].
  split; [apply areas3|]. split; [apply tiles3|].
  intros e a b He. 
  destruct (tagged_adjacent tag_dec (S ny * S nx) (cells3 p) (pr p) (U3 p) (U3 p) (tags3 p)
    (shape3 p) (nodes3 p) (sides3 p) (U3_inj p) (used3 p P) (fun x H => H) (touch3 p P) check M B e a b He)
    as (t & Ht & HS & Hc).
  apply in_U3 in Ht. rewrite Hc, tags3_count by auto. apply boundary_count; auto.
Qed.

Theorem quad_mesh : well_shaped p -> forall check, exists M g,
  tp_quad_build p check = Ok (Some (M, g)) /\ (exists h, built check h M) /\
  num_entities 2 M = (nx + 1) * (ny + 1) /\
  num_entities 1 M = (nx + 1) * ny + nx * (ny + 1) /\
  num_entities_of_type kTria M = 0 /\ num_entities_of_type kQuad M = nx * ny /\
  (forall i j, i <= nx -> j <= ny -> nth_error (g_points g) (i + j * (nx + 1)) = Some (grid_point p i j)) /\
  geometry_matches M g /\
  (forall cs, In cs (g_cells g) -> signed_area cs =
     ((p_x1 p - p_x0 p) / INR nx * ((p_y1 p - p_y0 p) / INR ny))%R) /\
  tiles p (g_cells g) /\
  (forall e a b, nth_error (mv_edges (view M)) e = Some (a, b) ->
     (adjacent (view M) e = 1 \/ adjacent (view M) e = 2) /\
     (adjacent (view M) e = 1 <-> on_common_side p (place g a) (place g b))).
Proof.
  intros W check. rewrite (quad_loops p P W). fold nx ny.
  assert (Hn : incl (@nil tag) (U4 p)) by (intros x []).
  destruct (tagged_built (S ny * S nx) (cells4 p) (pr p) (U4 p) [] (tags4 p)
    (shape4 p) (nodes4 p) (sides4 p) (U4_proper p) (U4_inj p) (used4 p P) Hn (NoDup_nil _) (touch4 p P) check)
    as (M & C & B).
  cbn [map] in C. rewrite C. cbn [bind]. exists M, (sites4 p). split; auto. split; [eauto|].
  pose proof (tagged_nodes (S ny * S nx) (cells4 p) (pr p) [] (shape4 p) check M B) as [N1 N2].
  pose proof (tagged_count (S ny * S nx) (cells4 p) (pr p) (U4 p) [] (tags4 p)
    (shape4 p) (sides4 p) (U4_inj p) (U4_nodup p) (used4 p P) Hn check M B) as NE.
  destruct (view_counts check _ M B) as (V1 & V2 & V3).
  pose proof (numbering check _ M B) as (_ & NT & NQ & _).
  rewrite raw_cells in NT, NQ by apply shape4.
  assert (L4 : forall c, In c (cells4 p) -> length c = 4).
  { intros c H. apply in_grid in H as (i & j & ? & ? & [<-|[]]); reflexivity. }
  assert (LC : length (cells4 p) = nx * ny) by (unfold cells4; rewrite (grid_length _ _ 1) by auto; fold nx ny; lia).
  split; [rewrite <- V1, N1; lia|]. rewrite (U4_length p) in NE. fold nx ny in NE.
  split; [rewrite <- V2, NE; auto|].
  split; [rewrite NT, (proj2 (filter_len _ _ true L4)); auto|].
  split; [rewrite NQ, (proj1 (filter_len _ _ true L4)), LC; auto|].
  split.
  { intros i j Hi Hj. rewrite <- loc_grid. apply tp_place; auto. }
  split.
  { split; [|split; [|split]].
    - rewrite N1. cbn [sites4 g_points]. apply tp_points_length.
    - cbn [sites4 g_cells]. rewrite <- (map_length cv_nodes (mv_cells (view M))), N2, LC.
      unfold geo4. rewrite (grid_length _ _ 1) by auto. fold nx ny. lia.
    - intros k c cs Hk Hcs. cbn [sites4 g_cells] in Hcs.
      assert (Hc : nth_error (cells4 p) k = Some (cv_nodes c)) by (rewrite <- N2, nth_error_map, Hk; reflexivity).
      apply grid_nth_inv with (c := 1) in Hcs as (i & j & r & Hi & Hj & -> & Hr); auto.
      apply grid_nth_inv with (c := 1) in Hc as (i' & j' & r' & Hi' & Hj' & E & Hr'); auto.
      destruct r as [|r]; [|destruct r; discriminate]. destruct r' as [|r']; [|destruct r'; discriminate].
      fold nx ny in Hi, Hj, Hi', Hj', E.
      assert (i = i') by nia. subst i'. assert (j = j') by lia. subst j'.
      cbn [nth_error] in Hr, Hr'; injection Hr as <-; injection Hr' as <-;
      cbn [square map]; rewrite !place_ok by (auto; lia); auto.
    - intros k a b cs Hk Hcs. cbn [sites4 g_edges] in Hcs. destruct k; discriminate. }
  split; [apply areas4|]. split; [apply tiles4|].
  intros e a b He.
  destruct (tagged_adjacent tag_dec (S ny * S nx) (cells4 p) (pr p) (U4 p) [] (tags4 p)
    (shape4 p) (nodes4 p) (sides4 p) (U4_inj p) (used4 p P) Hn (touch4 p P) check M B e a b He)
    as (t & Ht & HS & Hc).
  apply in_U4 in Ht. rewrite Hc, tags4_count by auto. apply boundary_count; auto. apply straight_ok; auto.
Qed.
End Geo.

Theorem improper_null : forall p check, p_nx p = 0 \/ p_ny p = 0 \/ (p_x1 p <= p_x0 p)%R \/ (p_y1 p <= p_y0 p)%R ->
  tp_triag_build p check = Ok None /\ tp_quad_build p check = Ok None /\ torus_build p check = Ok None.
Proof.
  intros p check H. unfold tp_triag_build, tp_quad_build, torus_build.
  destruct (Nat.eqb_spec (2 * p_nx p * p_ny p) 0), (Nat.eqb_spec (p_nx p * p_ny p) 0); auto; try nia.
  destruct (Rle_lt_dec (x_size p) 0); auto. destruct (Rle_lt_dec (y_size p) 0); auto.
  exfalso. unfold x_size, y_size in *. destruct H as [H|[H|[H|H]]]; try nia; lra.
Qed.
