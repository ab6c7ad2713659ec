(** Hierarchic elements: gradients. *)
From Coq Require Import Reals List Arith Lia Lra Bool.
Import ListNotations.
From Verif Require Import Base MeshModel MeshView DofModel RefPatModel GeoModel GeoSpec
  FeModel LagrModel QuadModel HierModel FeSpec Calc LagrProofs2 LegendreProofs JacobiProofs HierProofs.
Local Open Scope R_scope.

Lemma ilegendre_one_qd : forall n x y, (1 <= n)%nat -> qd (fun s _ => ilegendre n s 1) x y (ilegendre_dx n x 1) 0.
Proof.
  intros n x y Hn. eapply qd_eq.
  - apply (qd_comp (ilegendre n) (fun s _ => s) (fun _ _ => 1)); [apply ilegendre_qd, Hn|apply qd_fst|apply qd_const].
  - ring.
  - ring.
Qed.
Lemma seg_grads_length : forall p x, length (seg_grads p x) = (2 + (p - 1))%nat.
Proof. intros. unfold seg_grads. rewrite app_length, map_length, seq_length. reflexivity. Qed.
Lemma seg_row_qd : forall p k x y, qd (fun s _ => nth k (seg_rows p s) 0) x y (nth k (seg_grads p x) 0) 0.
Proof.
  intros p k x y. destruct k as [|[|k]].
  - cbn [seg_rows seg_grads app nth]. qd_auto; ring.
  - cbn [seg_rows seg_grads app nth]. apply qd_fst.
  - destruct (Nat.lt_ge_cases k (p - 1)) as [H|H].
    + unfold seg_rows, seg_grads. cbn [app nth]. apply (qd_ext (fun s _ => ilegendre (k + 2) s 1)).
      { intros. rewrite nth_map_seq by exact H. reflexivity. }
      rewrite nth_map_seq by exact H. apply ilegendre_one_qd. lia.
    + apply (qd_ext (fun _ _ => 0)).
      * intros. symmetry. apply nth_overflow. rewrite seg_rows_length. lia.
      * rewrite nth_overflow by (rewrite seg_grads_length; lia). apply qd_const.
Qed.
Lemma segment_gradients : forall p q, (1 <= p)%nat -> gradients_ok (hier_segment p q).
Proof.
  intros p q Hp. apply (gradients_one _ (seg_rows p) (seg_grads p)); try reflexivity.
  - intros s. rewrite seg_grads_length. cbn [hier_segment fe_total]. lia.
  - intros s i _. apply seg_row_qd.
Qed.

(** *** Lists of functions *)
Definition rows_qd (ev : R -> R -> list R) (g : list (list R)) (x y : R) : Prop :=
  (forall a b, length (ev a b) = length g) /\
  forall i, (i < length g)%nat -> length (nth i g []) = 2%nat /\
    qd (fun a b => nth i (ev a b) 0) x y (nth 0 (nth i g []) 0) (nth 1 (nth i g []) 0).
Lemma rows_nil : forall x y, rows_qd (fun _ _ => []) [] x y.
Proof. intros. split; [reflexivity|]. intros i Hi. cbn in Hi. lia. Qed.
Lemma rows_cons : forall f g ev gs x y, length g = 2%nat -> qd f x y (nth 0 g 0) (nth 1 g 0) -> rows_qd ev gs x y ->
  rows_qd (fun a b => f a b :: ev a b) (g :: gs) x y.
Proof.
  intros f g ev gs x y L Hf [H1 H2]. split; [intros; cbn; rewrite H1; reflexivity|].
  intros [|i] Hi; cbn [nth]; [auto|]. apply H2. cbn in Hi. lia.
Qed.
Lemma rows_app : forall ev1 g1 ev2 g2 x y, rows_qd ev1 g1 x y -> rows_qd ev2 g2 x y ->
  rows_qd (fun a b => ev1 a b ++ ev2 a b) (g1 ++ g2) x y.
Proof.
  intros ev1 g1 ev2 g2 x y [A1 A2] [B1 B2]. split; [intros; rewrite !app_length, A1, B1; reflexivity|].
  intros i Hi. rewrite app_length in Hi. destruct (Nat.lt_ge_cases i (length g1)) as [H|H].
  - rewrite app_nth1 by exact H. destruct (A2 i H) as (L & Q). split; [exact L|].
    eapply qd_ext; [|exact Q]. intros. cbv beta. rewrite app_nth1; [reflexivity|]. rewrite A1. exact H.
  - rewrite app_nth2 by exact H. destruct (B2 (i - length g1)%nat) as (L & Q); [lia|]. split; [exact L|].
    eapply qd_ext; [|exact Q]. intros s t. cbv beta. rewrite app_nth2; [|rewrite A1; exact H]. rewrite A1. reflexivity.
Qed.
Lemma rows_map : forall A (l : list A) (f : A -> R -> R -> R) (g : A -> list R) x y,
  (forall k, In k l -> length (g k) = 2%nat /\ qd (f k) x y (nth 0 (g k) 0) (nth 1 (g k) 0)) ->
  rows_qd (fun a b => map (fun k => f k a b) l) (map g l) x y.
Proof.
  intros A l f g x y H. induction l as [|k l IH]; [apply rows_nil|]. cbn [map].
  apply (rows_cons (f k) (g k) (fun a b => map (fun k => f k a b) l)).
  - apply H. left. reflexivity.
  - apply H. left. reflexivity.
  - apply IH. intros. apply H. right. auto.
Qed.
Lemma rows_edge : forall (o : bool) n (pos neg : nat -> R -> R -> R) (dpos dneg : nat -> list R) x y,
  (forall i, (i < n)%nat -> let f := if o then pos i else neg i in let g := if o then dpos i else dneg i in
     length g = 2%nat /\ qd f x y (nth 0 g 0) (nth 1 g 0)) ->
  rows_qd (fun a b => edge_rows o n (fun i => pos i a b) (fun i => neg i a b)) (edge_rows o n dpos dneg) x y.
Proof.
  intros o n pos neg dpos dneg x y H. unfold edge_rows. destruct o.
  - apply rows_map. intros k Hk. apply H. apply in_seq in Hk. lia.
  - assert (E : forall B (l : list nat) (h : nat -> B), rev (map h l) = map h (rev l)) by (intros; symmetry; apply map_rev).
    rewrite E. split.
    + intros a b. rewrite E, !map_length. reflexivity.
    + intros i Hi. assert (M : rows_qd (fun a b => map (fun k => neg k a b) (rev (seq 0 n))) (map dneg (rev (seq 0 n))) x y).
      { apply rows_map. intros k Hk. rewrite <- in_rev in Hk. apply in_seq in Hk. apply (H k). lia. }
      destruct M as (_ & M). destruct (M i Hi) as (L & Q). split; [exact L|]. eapply qd_ext; [|exact Q].
      intros s t. cbv beta. rewrite E. reflexivity.
Qed.
Lemma rows_gradients : forall f ev gr, dimension (fe_el f) = 2%nat ->
  (forall s t, fe_eval f [s; t] = Ok (ev s t)) -> (forall s t, fe_grad f [s; t] = Ok (gr s t)) ->
  (forall s t, length (ev s t) = fe_total f) -> (forall s t, rows_qd ev (gr s t) s t) -> gradients_ok f.
Proof.
  intros f ev gr Hd He Hg Hl H. apply (gradients_two f ev gr); auto.
  - intros s t. destruct (H s t) as (A & B). split; [rewrite <- (A s t); apply Hl|].
    intros r Hr. apply (In_nth _ _ []) in Hr. destruct Hr as (i & Hi & <-). apply (B i Hi).
  - intros s t i Hi. destruct (H s t) as (A & B). apply (B i). rewrite <- (A s t), Hl. exact Hi.
Qed.

(** *** Triangle *)
Lemma chain_qd : forall n (a b : R -> R -> R) ga gb x y, (1 <= n)%nat ->
  qd a x y (fst ga) (snd ga) -> qd b x y (fst gb) (snd gb) ->
  qd (fun s t => ilegendre n (a s t) (a s t + b s t)) x y
     (nth 0 (chain n (a x y) (b x y) ga gb) 0) (nth 1 (chain n (a x y) (b x y) ga gb) 0).
Proof.
  intros n a b ga gb x y Hn Ha Hb. eapply qd_eq.
  - apply (qd_comp (ilegendre n) a (fun s t => a s t + b s t)); [apply ilegendre_qd, Hn|exact Ha|apply qd_plus; eassumption].
  - reflexivity.
  - reflexivity.
Qed.
Lemma chain_qd' : forall n (a b : R -> R -> R) ga gb x y, (1 <= n)%nat ->
  qd a x y (fst ga) (snd ga) -> qd b x y (fst gb) (snd gb) ->
  qd (fun s t => ilegendre n (a s t) (b s t + a s t)) x y
     (nth 0 (chain n (a x y) (b x y) ga gb) 0) (nth 1 (chain n (a x y) (b x y) ga gb) 0).
Proof.
  intros n a b ga gb x y Hn Ha Hb. eapply qd_ext; [|apply chain_qd; eassumption]. intros s t. cbv beta. f_equal. ring.
Qed.
Lemma tria_gradients : forall p ed os qe qt, gradients_ok (hier_tria p ed os qe qt).
Proof.
  intros p ed os qe qt. apply (rows_gradients _ (tria_rows p ed os) (tria_grads p ed os)); try reflexivity.
  { intros s t. rewrite tria_rows_length. cbn [hier_tria fe_total]. lia. }
  intros x y. unfold tria_rows, tria_grads. cbv zeta.
  assert (Q1 : qd (fun s t => 1 - s - t) x y (fst (-1, -1)) (snd (-1, -1))) by (qd_auto; cbn; ring).
  assert (Q2 : qd (fun s t : R => s) x y (fst (1, 0)) (snd (1, 0))) by (apply qd_fst).
  assert (Q3 : qd (fun s t : R => t) x y (fst (0, 1)) (snd (0, 1))) by (apply qd_snd).
  apply rows_app; [|apply rows_app; [|apply rows_app; [|apply rows_app]]].
  - repeat (apply rows_cons; [reflexivity|assumption|]). apply rows_nil.
  - apply (rows_edge _ _ (fun i x y => ilegendre (i + 2) x (1 - x - y + x)) (fun i x y => ilegendre (i + 2) (1 - x - y) (1 - x - y + x))).
    intros i _. destruct (ori_at os 0); cbv zeta; (split; [reflexivity|]).
    + apply (chain_qd' _ (fun x y => x) (fun x y => 1 - x - y)); auto; lia.
    + apply (chain_qd _ (fun x y => 1 - x - y) (fun x y => x)); auto; lia.
  - apply (rows_edge _ _ (fun i x y => ilegendre (i + 2) y (x + y)) (fun i x y => ilegendre (i + 2) x (x + y))).
    intros i _. destruct (ori_at os 1); cbv zeta; (split; [reflexivity|]).
    + apply (chain_qd' _ (fun x y => y) (fun x y => x)); auto; lia.
    + apply (chain_qd _ (fun x y => x) (fun x y => y)); auto; lia.
  - apply (rows_edge _ _ (fun i x y => ilegendre (i + 2) (1 - x - y) (y + (1 - x - y))) (fun i x y => ilegendre (i + 2) y (y + (1 - x - y)))).
    intros i _. destruct (ori_at os 2); cbv zeta; (split; [reflexivity|]).
    + apply (chain_qd' _ (fun x y => 1 - x - y) (fun x y => y)); auto; lia.
    + apply (chain_qd _ (fun x y => y) (fun x y => 1 - x - y)); auto; lia.
  - apply (rows_map _ (tria_ij p) (fun ij x y => tria_edge0 (ori_at os 0) (fst ij) (1 - x - y) x *
                       ijacobi (snd ij + 1) (2 * INR (fst ij) + 4) y)).
    intros [i j] _. cbn [fst snd]. split; [reflexivity|]. cbn [nth].
    assert (QJ : qd (fun _ t => ijacobi (j + 1) (2 * INR i + 4) t) x y 0 (ijacobi_dx (j + 1) (2 * INR i + 4) y)).
    { eapply qd_eq.
      - apply (qd_comp (fun s _ => ijacobi (j + 1) (2 * INR i + 4) s) (fun _ t => t) (fun _ _ => 0));
          [apply ijacobi_qd; [pose proof (INR_pos i); lra|lia]|apply qd_snd|apply qd_const].
      - ring.
      - ring. }
    unfold tria_edge0. destruct (ori_at os 0).
    + eapply qd_eq; [eapply qd_mult; [apply (chain_qd' (i + 2) (fun x y => x) (fun x y => 1 - x - y) _ _ x y ltac:(lia) Q2 Q1)|exact QJ]| |];
        cbv beta; ring.
    + eapply qd_eq; [eapply qd_mult; [apply (chain_qd (i + 2) (fun x y => 1 - x - y) (fun x y => x) _ _ x y ltac:(lia) Q1 Q2)|exact QJ]| |];
        cbv beta; ring.
Qed.

(** *** Quadrilateral *)
Section Quad.
Variable m : nat.
Variables x y : R.
Lemma qx : forall k, qd (fun s _ => nth k (seg_rows m s) 0) x y (nth k (seg_grads m x) 0) 0.
Proof. intros k. apply seg_row_qd. Qed.
Lemma qy : forall k, qd (fun _ t => nth k (seg_rows m t) 0) x y 0 (nth k (seg_grads m y) 0).
Proof.
  intros k. eapply qd_eq.
  - apply (qd_comp (fun s _ => nth k (seg_rows m s) 0) (fun _ t => t) (fun _ _ => 0)); [apply seg_row_qd|apply qd_snd|apply qd_const].
  - ring.
  - ring.
Qed.
Lemma qfx : forall k, qd (fun s _ => nth k (seg_rows m (1 - s)) 0) x y (- nth k (seg_grads m (1 - x)) 0) 0.
Proof.
  intros k. eapply qd_eq.
  - apply (qd_comp (fun s _ => nth k (seg_rows m s) 0) (fun s _ => 1 - s) (fun _ _ => 0)); [apply seg_row_qd|qd_auto; reflexivity|apply qd_const].
  - ring.
  - ring.
Qed.
Lemma qfy : forall k, qd (fun _ t => nth k (seg_rows m (1 - t)) 0) x y 0 (- nth k (seg_grads m (1 - y)) 0).
Proof.
  intros k. eapply qd_eq.
  - apply (qd_comp (fun s _ => nth k (seg_rows m s) 0) (fun _ t => 1 - t) (fun _ _ => 0)); [apply seg_row_qd|qd_auto; reflexivity|apply qd_const].
  - ring.
  - ring.
Qed.
Lemma q_tensor : forall (f g : R -> R) a b, qd (fun s _ => f s) x y a 0 -> qd (fun _ t => g t) x y 0 b ->
  qd (fun s t => f s * g t) x y (a * g y) (f x * b).
Proof. intros f g a b Hf Hg. eapply qd_eq; [eapply qd_mult; eassumption| |]; cbv beta; ring. Qed.
End Quad.
Lemma quad_gradients : forall p ed os qe q1, gradients_ok (hier_quad p ed os qe q1).
Proof.
  intros p ed os qe q1. apply (rows_gradients _ (quad_rows p ed os) (quad_grads p ed os)); try reflexivity.
  { intros s t. rewrite quad_rows_length. cbn [hier_quad fe_total]. lia. }
  intros x y. unfold quad_rows, quad_grads. cbv zeta. set (m := quad_deg p ed).
  apply rows_app; [|apply rows_app; [|apply rows_app; [|apply rows_app; [|apply rows_app]]]].
  - repeat (apply rows_cons; [reflexivity|
      apply (q_tensor x y (fun x => nth _ (seg_rows m x) 0) (fun y => nth _ (seg_rows m y) 0)); [apply qx|apply qy]|]). apply rows_nil.
  - apply (rows_edge _ _ (fun i x y => nth (2 + i) (seg_rows m x) 0 * nth 0 (seg_rows m y) 0)
                         (fun i x y => nth (2 + i) (seg_rows m (1 - x)) 0 * nth 0 (seg_rows m y) 0)).
    intros i _. destruct (ori_at os 0); cbv zeta; (split; [reflexivity|]).
    + apply (q_tensor x y (fun x => nth (2 + i) (seg_rows m x) 0) (fun y => nth 0 (seg_rows m y) 0)); [apply qx|apply qy].
    + apply (q_tensor x y (fun x => nth (2 + i) (seg_rows m (1 - x)) 0) (fun y => nth 0 (seg_rows m y) 0)); [apply qfx|apply qy].
  - apply (rows_edge _ _ (fun i x y => nth 1 (seg_rows m x) 0 * nth (2 + i) (seg_rows m y) 0)
                         (fun i x y => nth 1 (seg_rows m x) 0 * nth (2 + i) (seg_rows m (1 - y)) 0)).
    intros i _. destruct (ori_at os 1); cbv zeta; (split; [reflexivity|]).
    + apply (q_tensor x y (fun x => nth 1 (seg_rows m x) 0) (fun y => nth (2 + i) (seg_rows m y) 0)); [apply qx|apply qy].
    + apply (q_tensor x y (fun x => nth 1 (seg_rows m x) 0) (fun y => nth (2 + i) (seg_rows m (1 - y)) 0)); [apply qx|apply qfy].
  - apply (rows_edge _ _ (fun i x y => nth (2 + i) (seg_rows m (1 - x)) 0 * nth 1 (seg_rows m y) 0)
                         (fun i x y => nth (2 + i) (seg_rows m x) 0 * nth 1 (seg_rows m y) 0)).
    intros i _. destruct (ori_at os 2); cbv zeta; (split; [reflexivity|]).
    + apply (q_tensor x y (fun x => nth (2 + i) (seg_rows m (1 - x)) 0) (fun y => nth 1 (seg_rows m y) 0)); [apply qfx|apply qy].
    + apply (q_tensor x y (fun x => nth (2 + i) (seg_rows m x) 0) (fun y => nth 1 (seg_rows m y) 0)); [apply qx|apply qy].
  - apply (rows_edge _ _ (fun i x y => nth 0 (seg_rows m x) 0 * nth (2 + i) (seg_rows m (1 - y)) 0)
                         (fun i x y => nth 0 (seg_rows m x) 0 * nth (2 + i) (seg_rows m y) 0)).
    intros i _. destruct (ori_at os 3); cbv zeta; (split; [reflexivity|]).
    + apply (q_tensor x y (fun x => nth 0 (seg_rows m x) 0) (fun y => nth (2 + i) (seg_rows m (1 - y)) 0)); [apply qx|apply qfy].
    + apply (q_tensor x y (fun x => nth 0 (seg_rows m x) 0) (fun y => nth (2 + i) (seg_rows m y) 0)); [apply qx|apply qy].
  - apply (rows_map _ (quad_ij p) (fun kj x y => nth (fst kj + 2) (seg_rows m x) 0 * nth (snd kj + 2) (seg_rows m y) 0)).
    intros [i j] _. cbn [fst snd]. split; [reflexivity|]. cbn [nth].
    apply (q_tensor x y (fun x => nth (i + 2) (seg_rows m x) 0) (fun y => nth (j + 2) (seg_rows m y) 0)); [apply qx|apply qy].
Qed.
