From Coq Require Import Reals Lra List Arith Lia Bool ZArith.
Import ListNotations.
From Verif Require Import Base MeshModel RefPatModel GeoModel GeoSpec GeoProofs GeoProofs2 GeoProofs3 GeoProofs4 GeoProofs5.
Local Open Scope R_scope.

Lemma columns_nodes : forall g codim w c i, base_facts g codim w c -> (i < length w)%nat ->
  Global g (nth i w []) = Ok (col c i).
Proof.
  intros g codim w c i (C & Dc & Dk & Ln & O & Q & KQ & F & Hc) Hi.
  destruct (nth_error (control_points (go_kind c)) i) as [x|] eqn:E.
  - rewrite <- (Hc i x E). f_equal.
    assert (A : nth_error (map (onto w) (control_points (go_kind c))) i = Some (onto w x)) by (apply map_nth_error, E).
    rewrite onto_points in A; [|auto|].
    + rewrite nth_error_app1 in A by exact Hi. apply nth_error_nth, A.
    + exists (dim_local (go_kind g)). split; [|split; [|exact F]].
      * intros N. destruct (go_kind c); cbn in Dk |- *; try lia. contradiction.
      * destruct (go_kind g); cbn; lia.
  - exfalso. apply nth_error_None in E. rewrite control_len in E.
    destruct (go_kind c); cbn in E, Ln; lia.
Qed.

Lemma mid_between : forall a b, mid a b = between a b (1 / 2).
Proof. intros. unfold mid, between. apply map_ext. intros p. field. Qed.

Lemma map_seq_nth : forall {A} (f : nat -> A) n i, (i < n)%nat -> nth_error (map f (seq 0 n)) i = Some (f i).
Proof.
  intros A f n i H. apply map_nth_error. rewrite (nth_error_nth' _ 0%nat) by (rewrite seq_length; exact H).
  rewrite seq_nth by exact H. reflexivity.
Qed.

Lemma columns_mids : forall g codim w c i, base_facts g codim w c -> is_o2 (go_kind c) = true ->
  (i < if (dim_local (go_kind c) =? 1)%nat then 1 else length w)%nat ->
  Global g (between (nth i w []) (nth ((i + 1) mod length w) w []) (1 / 2)) = Ok (col c (length w + i)).
Proof.
  intros g codim w c i (C & Dc & Dk & Ln & O & Q & KQ & F & Hc) O2 Hi.
  destruct (nth_error (control_points (go_kind c)) (length w + i)) as [x|] eqn:E.
  - rewrite <- (Hc _ x E). f_equal.
    assert (A : nth_error (map (onto w) (control_points (go_kind c))) (length w + i) = Some (onto w x)) by (apply map_nth_error, E).
    rewrite onto_points in A; [|auto|].
    + rewrite nth_error_app2 in A by lia. replace (length w + i - length w)%nat with i in A by lia.
      rewrite <- mid_between. unfold mids in A.
      destruct (go_kind c); try discriminate O2; cbn [dim_local kind_el el_dim Nat.eqb num_nodes] in Hi, Ln.
      * assert (i = 0%nat) by lia. subst i. cbn in A. rewrite <- Ln. apply Some_inv in A. exact A.
      * rewrite map_seq_nth in A by exact Hi. apply Some_inv in A. exact A.
      * rewrite map_seq_nth in A by exact Hi. apply Some_inv in A. exact A.
    + exists (dim_local (go_kind g)). split; [|split; [|exact F]].
      * intros N. destruct (go_kind c); cbn in Dk |- *; try lia. contradiction.
      * destruct (go_kind g); cbn; lia.
  - exfalso. apply nth_error_None in E. rewrite control_len in E.
    destruct (go_kind c); try discriminate O2; cbn in E, Ln, Hi; lia.
Qed.

Lemma base_exact : forall g codim w c, base_facts g codim w c -> exact_parallelogram g -> exact_parallelogram c.
Proof.
  intros g codim w c B _ K k. pose proof B as (C & Dc & Dk & Ln & O & Q & KQ & F & Hc).
  destruct (Q K) as (Kg & X). rewrite K in Ln. cbn [kind_el num_nodes] in Ln.
  assert (V : forall i, (i < 4)%nat -> col c i = global_at g (nth 0 (nth i w []) 0) (nth 1 (nth i w []) 0)).
  { intros i Hi. apply Global_value. eapply columns_nodes; eauto. lia. }
  rewrite !V by lia. unfold global_at. rewrite Kg.
  replace (nth 0 (nth 2 w []) 0) with (nth 0 (nth 1 w []) 0 + nth 0 (nth 3 w []) 0 - nth 0 (nth 0 w []) 0) by (pose proof (X 0%nat); lra).
  replace (nth 1 (nth 2 w []) 0) with (nth 1 (nth 1 w []) 0 + nth 1 (nth 3 w []) 0 - nth 1 (nth 0 w []) 0) by (pose proof (X 1%nat); lra).
  ring.
Qed.

(** Values on an edge. *)
Lemma edge_formula : forall c i t k, constructed c -> exact_parallelogram c -> dim_local (go_kind c) = 2%nat ->
  let n := num_nodes (kind_el (go_kind c)) in (i < n)%nat ->
  let e := on_edge (kind_el (go_kind c)) i t in
  global_at c (nth 0 e 0) (nth 1 e 0) k =
    if is_o2 (go_kind c) then (1 - t) * (1 - 2 * t) * col c i k + t * (2 * t - 1) * col c ((i + 1) mod n) k + 4 * t * (1 - t) * col c (n + i) k
    else (1 - t) * col c i k + t * col c ((i + 1) mod n) k.
Proof.
  intros c i t k C X D n Hi e. unfold exact_parallelogram in X. unfold n, e in *. clear n e. unfold global_at.
  destruct (go_kind c); try discriminate D; cbn [kind_el num_nodes] in Hi;
    destruct i as [|[|[|[|i]]]]; try lia; cbn [is_o2];
    cbv [on_edge between ref_node ref_nodes kind_el num_nodes nth combine map fst snd
        Nat.add Nat.modulo Nat.divmod Nat.sub s2_alpha s2_beta s2_gamma t2_beta0 t2_beta1 t2_gamma0
        t2_gamma1 t2_delta t2_alpha q2_beta0 q2_beta1 q2_gamma0 q2_gamma1 q2_delta q2_alpha q2_eps0 q2_eps1 Rsqr]; try ring.
  all: specialize (X eq_refl k); replace (col c 2 k) with (col c 1 k + col c 3 k - col c 0 k) by lra; ring.
Qed.

Lemma corners_defined : forall g codim w c, base_facts g codim w c -> is_o2 (go_kind g) = true ->
  Forall (fun p => forall t, In t p -> 0 <= t <= 1) w.
Proof.
  intros g codim w c B O. apply Forall_forall. intros p Hp. apply In_nth with (d := []) in Hp. destruct Hp as (i & Hi & <-).
  pose proof (columns_nodes _ _ _ _ _ B Hi) as E. apply Global_defined in E. destruct E as (_ & E). apply E, O.
Qed.

Lemma convex01 : forall a b s, 0 <= a <= 1 -> 0 <= b <= 1 -> 0 <= s <= 1 -> 0 <= (1 - s) * a + s * b <= 1.
Proof.
  intros a b s A B H.
  pose proof (Rmult_le_pos (1 - s) a ltac:(lra) ltac:(lra)). pose proof (Rmult_le_pos s b ltac:(lra) ltac:(lra)).
  pose proof (Rmult_le_pos (1 - s) (1 - a) ltac:(lra) ltac:(lra)). pose proof (Rmult_le_pos s (1 - b) ltac:(lra) ltac:(lra)). lra.
Qed.

Lemma convex3 : forall a b c s t, 0 <= a <= 1 -> 0 <= b <= 1 -> 0 <= c <= 1 -> 0 <= s -> 0 <= t -> s + t <= 1 ->
  0 <= (1 - s - t) * a + s * b + t * c <= 1.
Proof.
  intros a b c s t A B C H H' S.
  pose proof (Rmult_le_pos (1 - s - t) a ltac:(lra) ltac:(lra)). pose proof (Rmult_le_pos s b ltac:(lra) ltac:(lra)).
  pose proof (Rmult_le_pos t c ltac:(lra) ltac:(lra)). pose proof (Rmult_le_pos (1 - s - t) (1 - a) ltac:(lra) ltac:(lra)).
  pose proof (Rmult_le_pos s (1 - b) ltac:(lra) ltac:(lra)). pose proof (Rmult_le_pos t (1 - c) ltac:(lra) ltac:(lra)). lra.
Qed.

Lemma onto_defined : forall g codim w c x, base_facts g codim w c -> go_kind g <> GPoint ->
  (if is_o2 (go_kind g) then in_ref (kind_el (go_kind c)) x else length x = dim_local (go_kind c)) ->
  admissible g (onto w x).
Proof.
  intros g codim w c x B NP Hx. pose proof B as (C & Dc & Dk & Ln & O & Q & KQ & F & Hc).
  assert (Lw : length (onto w x) = dim_local (go_kind g)).
  { unfold onto. destruct w as [|p w]; [destruct (kind_el (go_kind c)); discriminate Ln|].
    inversion F as [|? ? Lp _]; subst. rewrite <- Lp.
    destruct (kind_el (go_kind c)); cbn [num_nodes] in Ln; rewrite <- Ln; rewrite map_length, seq_length; reflexivity. }
  split; [exact Lw|]. intros O2. rewrite O2 in Hx.
  pose proof (corners_defined _ _ _ _ B O2) as I.
  assert (D : dim_local (go_kind g) = 1%nat \/ dim_local (go_kind g) = 2%nat).
  { destruct (go_kind g); cbn; auto. contradiction. }
  clear Lw Hc Q C B.
  destruct (kind_el (go_kind c)); cbn [num_nodes] in Ln; repeat (destruct w as [|? w]; try discriminate Ln); clear Ln.
  all: destruct x as [|? [|? [|? ?]]]; cbn [in_ref] in Hx; try contradiction.
  all: destruct D as [D|D]; rewrite D in F.
  all: repeat match goal with F : Forall _ (_ :: _) |- _ => inversion F; clear F; subst end.
  all: repeat match goal with p : list R |- _ => destruct p as [|? p]; cbn [length] in *; try discriminate; try lia end.
  all: repeat match goal with H : forall t, In t [?a] -> _ |- _ => pose proof (H a (or_introl eq_refl)); clear H end.
  all: repeat match goal with H : forall t, In t [?a; ?b] -> _ |- _ =>
     pose proof (H a (or_introl eq_refl)); pose proof (H b (or_intror (or_introl eq_refl))); clear H end.
  all: cbv [onto length nth seq map combine fold_right fst snd]; intros u Hu.
  all: repeat (destruct Hu as [<-|Hu]); try contradiction.
  all: try lra.
  all: try match goal with |- 0 <= (1 - ?s) * ?a + (?s * ?b + 0) <= 1 =>
     replace ((1 - s) * a + (s * b + 0)) with ((1 - s) * a + s * b) by ring; apply convex01; lra end.
  all: try match goal with |- 0 <= (1 - ?s - ?t) * ?a + (?s * ?b + (?t * ?c + 0)) <= 1 =>
     replace ((1 - s - t) * a + (s * b + (t * c + 0))) with ((1 - s - t) * a + s * b + t * c) by ring; apply convex3; lra end.
  all: match goal with |- 0 <= (1 - ?s) * (1 - ?t) * ?a + (?s * (1 - ?t) * ?b + (?s * ?t * ?c + ((1 - ?s) * ?t * ?d + 0))) <= 1 =>
     replace ((1 - s) * (1 - t) * a + (s * (1 - t) * b + (s * t * c + ((1 - s) * t * d + 0)))) with
       ((1 - t) * ((1 - s) * a + s * b) + t * ((1 - s) * d + s * c)) by ring;
     apply convex01; [apply convex01; lra|apply convex01; lra|lra] end.
Qed.
