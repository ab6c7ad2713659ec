(** Traces of hierarchic shape functions, in terms of HierSpec. *)
From Coq Require Import Reals List Arith Lia Lra Bool.
From Coquelicot Require Import Coquelicot.
Import ListNotations.
From Verif Require Import Base MeshModel MeshView DofModel DofSpec RefPatModel GeoModel GeoSpec
  FeModel LagrModel QuadModel HierModel FeSpec QuadSpec HierSpec GaussSpec Calc LagrProofs2 FeProofs LegendreProofs JacobiProofs OrthoProofs
  HierProofs HierProofs2 PolyProofs HierProofs3 HierProofs6 HierProofs7 QuadProofs.
Local Open Scope R_scope.

Lemma blocks_off : forall ms s l, concat (map (fun i => if Nat.eqb i s then l else repeat 0 (nth i ms 0%nat)) (seq (S s) (length ms - S s))) =
  repeat 0 (list_sum (skipn (S s) ms)).
Proof.
  intros ms s l.
  assert (G : forall len k, (s < k)%nat -> (len = length ms - k)%nat ->
     concat (map (fun i => if Nat.eqb i s then l else repeat 0 (nth i ms 0%nat)) (seq k len)) = repeat 0 (list_sum (skipn k ms))).
  { induction len as [|len IH]; intros k Hk Hl.
    - rewrite skipn_all2 by lia. reflexivity.
    - cbn [seq map concat]. replace (k =? s)%nat with false by (symmetry; apply Nat.eqb_neq; lia). rewrite IH by lia.
      rewrite <- repeat_app. f_equal.
      assert (Sk : skipn k ms = nth k ms 0%nat :: skipn (S k) ms).
      { clear - Hl. assert (H : (k < length ms)%nat) by lia. clear Hl. revert k H. induction ms as [|m ms IH]; intros [|k] H; cbn [length] in H; try lia; [reflexivity|].
        cbn [skipn nth]. apply IH. lia. }
      rewrite Sk. reflexivity. }
  apply G; lia.
Qed.
Lemma blocks_before : forall ms j l k, (k <= j)%nat -> (k <= length ms)%nat ->
  concat (map (fun i => if Nat.eqb i j then l else repeat 0 (nth i ms 0%nat)) (seq 0 k)) = repeat 0 (list_sum (firstn k ms)).
Proof.
  intros ms j l k. induction k as [|k IH]; intros Hk Hl; [reflexivity|].
  rewrite seq_S, map_app, concat_app, IH by lia. cbn [Nat.add map concat]. replace (k =? j)%nat with false by (symmetry; apply Nat.eqb_neq; lia).
  rewrite app_nil_r, <- repeat_app. f_equal.
  assert (Sk : firstn (S k) ms = firstn k ms ++ [nth k ms 0%nat]).
  { assert (H : (k < length ms)%nat) by lia. clear - H. revert k H. induction ms as [|m ms IH]; intros [|k] H; cbn [length] in H; try lia; [reflexivity|].
    cbn [nth]. change (firstn (S (S k)) (m :: ms)) with (m :: firstn (S k) ms). rewrite IH by lia. reflexivity. }
  rewrite Sk, list_sum_app. cbn [list_sum fold_right]. lia.
Qed.
Lemma edge_blocks_split : forall ms j l, (j < length ms)%nat ->
  edge_blocks ms j l = repeat 0 (list_sum (firstn j ms)) ++ l ++ repeat 0 (list_sum (skipn (S j) ms)).
Proof.
  intros ms j l H. unfold edge_blocks. replace (length ms) with (j + S (length ms - S j))%nat by lia.
  rewrite seq_app, map_app, concat_app. cbn [Nat.add]. rewrite (blocks_before ms j l j) by lia. f_equal.
  cbn [seq map concat]. rewrite Nat.eqb_refl. f_equal. apply blocks_off.
Qed.
Lemma nth_repeat0 : forall n k, nth k (repeat 0 n) 0 = 0.
Proof. intros. apply nth_repeat. Qed.
Lemma list_sum_pred : forall (j : nat) ed, list_sum (map (fun d => d - 1)%nat (firstn j ed)) = list_sum (firstn j (trace_of ed)).
Proof. intros. unfold trace_of. rewrite firstn_map. reflexivity. Qed.
Lemma trace_edge : forall f s ed r j o d, (num_nodes (fe_el f) = 3 \/ num_nodes (fe_el f) = 4)%nat -> length ed = num_nodes (fe_el f) ->
  nth_error ed j = Some d -> (1 <= d)%nat ->
  (fe_total f = num_nodes (fe_el f) + list_sum (trace_of ed) + r)%nat ->
  trace_ok f s (trace_of ed) r j o -> edge_trace f s ed j o d.
Proof.
  intros f s ed r j o d Hn Led Hd H1 Tot T t. set (n := num_nodes (fe_el f)) in *. set (first := first_of_edge n ed j).
  assert (Hj : (j < length ed)%nat) by (apply nth_error_Some; congruence).
  destruct (T t) as (a & b & l & Es & Ll & Ef). fold n in Ef.
  assert (Nd : nth j (trace_of ed) 0%nat = (d - 1)%nat).
  { unfold trace_of. rewrite (nth_indep _ 0%nat (0 - 1)%nat) by (rewrite map_length; lia). rewrite (map_nth (fun d => d - 1)%nat ed 0%nat j).
    rewrite (nth_error_nth _ _ _ Hd). reflexivity. }
  rewrite Nd in Ll.
  rewrite edge_blocks_split in Ef by (unfold trace_of; rewrite map_length; lia).
  set (l' := if o then l else rev l) in Ef.
  assert (Ll' : length l' = (d - 1)%nat) by (unfold l'; destruct o; rewrite ?rev_length; exact Ll).
  assert (Lb : length (node_block n j o a b) = n) by (unfold node_block; rewrite map_length, seq_length; reflexivity).
  assert (Fi : first = (n + list_sum (firstn j (trace_of ed)))%nat) by (unfold first, first_of_edge; rewrite list_sum_pred; reflexivity).
  rewrite <- !app_assoc in Ef. set (pre := list_sum (firstn j (trace_of ed))) in *. set (post := list_sum (skipn (S j) (trace_of ed))) in *.
  assert (Sum : list_sum (trace_of ed) = (pre + (d - 1) + post)%nat).
  { unfold pre, post. rewrite <- (firstn_skipn j (trace_of ed)) at 1. rewrite list_sum_app.
    assert (Sk : skipn j (trace_of ed) = nth j (trace_of ed) 0%nat :: skipn (S j) (trace_of ed)).
    { assert (H : (j < length (trace_of ed))%nat) by (unfold trace_of; rewrite map_length; lia). clear - H. revert H. generalize (trace_of ed). revert j.
      induction j as [|j IH]; intros [|m ms] H; cbn [length] in H; try lia; [reflexivity|]. cbn [skipn nth]. apply IH. lia. }
    rewrite Sk, Nd. change (list_sum ((d - 1)%nat :: skipn (S j) (trace_of ed))) with ((d - 1) + list_sum (skipn (S j) (trace_of ed)))%nat. lia. }
  assert (Nb : forall k, (k < n)%nat -> nth k (node_block n j o a b) 0 =
     if Nat.eqb k j then (if o then a else b) else if Nat.eqb k ((j + 1) mod n) then (if o then b else a) else 0).
  { intros k Hk. unfold node_block. rewrite (nth_map_seq _ (fun i => if Nat.eqb i j then (if o then a else b) else if Nat.eqb i ((j + 1) mod n) then (if o then b else a) else 0)) by exact Hk. reflexivity. }
  assert (Mod : ((j + 1) mod n < n)%nat) by (apply Nat.mod_upper_bound; lia).
  assert (Mne : ((j + 1) mod n <> j)%nat).
  { destruct (Nat.eq_dec (j + 1) n) as [E|E]; [rewrite E, Nat.mod_same by lia; lia|rewrite Nat.mod_small by lia; lia]. }
  eexists. exists (a :: b :: l). split; [exact Ef|]. split; [exact Es|].
  split; [rewrite !app_length, Lb, !repeat_length, Ll'; lia|]. split; [cbn [length]; lia|].
  cbn [nth]. fold n.
  assert (Vn : forall k x, (k < n)%nat -> nth k (node_block n j o a b ++ x) 0 = nth k (node_block n j o a b) 0) by (intros; apply app_nth1; lia).
  split; [|split; [|split]].
  - rewrite Vn by (unfold edge_start; destruct o; lia). rewrite Nb by (unfold edge_start; destruct o; lia). unfold edge_start. destruct o.
    + rewrite Nat.eqb_refl. reflexivity.
    + replace (((j + 1) mod n) =? j)%nat with false by (symmetry; apply Nat.eqb_neq; lia). rewrite Nat.eqb_refl. reflexivity.
  - rewrite Vn by (unfold edge_end; destruct o; lia). rewrite Nb by (unfold edge_end; destruct o; lia). unfold edge_end. destruct o.
    + replace (((j + 1) mod n) =? j)%nat with false by (symmetry; apply Nat.eqb_neq; lia). rewrite Nat.eqb_refl. reflexivity.
    + rewrite Nat.eqb_refl. reflexivity.
  - intros i Hi. change (nth (first + (if o then i else d - 2 - i)) (node_block n j o a b ++ repeat 0 pre ++ l' ++ repeat 0 post ++ repeat 0 r) 0 = nth i l 0). rewrite app_nth2 by (rewrite Lb; lia). rewrite Lb. rewrite app_nth2 by (rewrite repeat_length; destruct o; lia).
    rewrite repeat_length. rewrite app_nth1 by (rewrite Ll'; destruct o; lia).
    change (nth (first + (if o then i else d - 2 - i) - n - pre) l' 0 = nth i l 0). unfold l'. destruct o.
    + f_equal. lia.
    + replace (first + (d - 2 - i) - n - pre)%nat with (length l - S i)%nat by lia. rewrite rev_nth by lia. f_equal. lia.
  - intros k K1 K2 K3. fold first in K3. destruct (Nat.lt_ge_cases k n) as [Kn|Kn].
    + rewrite Vn, Nb by exact Kn. unfold edge_start, edge_end in K1, K2.
      replace (k =? j)%nat with false by (symmetry; apply Nat.eqb_neq; destruct o; auto).
      replace (k =? (j + 1) mod n)%nat with false by (symmetry; apply Nat.eqb_neq; destruct o; auto). reflexivity.
    + rewrite app_nth2 by (rewrite Lb; lia). rewrite Lb. destruct (Nat.lt_ge_cases (k - n) pre) as [Kp|Kp].
      * rewrite app_nth1 by (rewrite repeat_length; lia). apply nth_repeat0.
      * rewrite app_nth2 by (rewrite repeat_length; lia). rewrite repeat_length, app_nth2 by (rewrite Ll'; lia).
        rewrite <- repeat_app. apply nth_repeat0.
Qed.
Lemma tria_edge_trace : forall p a b c os qe qt q j o d, nth_error [a; b; c] j = Some d -> nth_error os j = Some o -> (1 <= d)%nat ->
  edge_trace (hier_tria p [a; b; c] os qe qt) (hier_segment d q) [a; b; c] j o d.
Proof.
  intros p a b c os qe qt q j o d Hd Ho H1. apply (trace_edge _ _ _ (tria_interior p)); auto.
  - cbn [hier_tria fe_total fe_el num_nodes trace_of map list_sum fold_right edge_deg nth]. lia.
  - apply tria_trace; auto.
Qed.
Lemma quad_edge_trace : forall p a b c e os qe q1 q j o d, nth_error [a; b; c; e] j = Some d -> nth_error os j = Some o -> (1 <= d)%nat ->
  edge_trace (hier_quad p [a; b; c; e] os qe q1) (hier_segment d q) [a; b; c; e] j o d.
Proof.
  intros p a b c e os qe q1 q j o d Hd Ho H1. apply (trace_edge _ _ _ ((p - 1) * (p - 1))%nat); auto.
  - cbn [hier_quad fe_total fe_el num_nodes trace_of map list_sum fold_right edge_deg nth]. lia.
  - apply quad_trace; auto.
Qed.
Lemma segment_dual' : forall p q, (1 <= p)%nat -> rule_for kSegment (2 * (p - 1)) q -> dual (hier_segment p q).
Proof. intros p q H1 H2 u Hu. exact (segment_dual p q H1 H2 u Hu). Qed.
Lemma tria_dual' : forall p a b c os q0 q1 q2 qt, length os = 3%nat -> (1 <= a)%nat -> (1 <= b)%nat -> (1 <= c)%nat ->
  rule_for kSegment (2 * (a - 1)) q0 -> rule_for kSegment (2 * (b - 1)) q1 -> rule_for kSegment (2 * (c - 1)) q2 ->
  rule_for kTria (2 * (p - 1)) qt -> (forall x, In x (qr_points qt) -> nth 1 x 0 <> 1) ->
  dual (hier_tria p [a; b; c] os [q0; q1; q2] qt).
Proof. intros p a b c os q0 q1 q2 qt Lo Ha Hb Hc R0 R1 R2 Rt Hq u Hu. exact (tria_dual p a b c os q0 q1 q2 qt Lo Ha Hb Hc R0 R1 R2 Rt Hq u Hu). Qed.
Lemma quad_dual' : forall p a b c e os q0 q1 q2 q3 qi, length os = 4%nat ->
  (1 <= a)%nat -> (1 <= b)%nat -> (1 <= c)%nat -> (1 <= e)%nat ->
  rule_for kSegment (2 * (a - 1)) q0 -> rule_for kSegment (2 * (b - 1)) q1 -> rule_for kSegment (2 * (c - 1)) q2 ->
  rule_for kSegment (2 * (e - 1)) q3 -> rule_for kSegment (2 * (quad_deg p [a; b; c; e] - 1)) qi ->
  dual (hier_quad p [a; b; c; e] os [q0; q1; q2; q3] qi).
Proof. intros p a b c e os q0 q1 q2 q3 qi Lo Ha Hb Hc He R0 R1 R2 R3 Ri u Hu. exact (quad_dual p a b c e os q0 q1 q2 q3 qi Lo Ha Hb Hc He R0 R1 R2 R3 Ri u Hu). Qed.
Lemma segment_counts_wrong : forall p q, (1 <= p)%nat -> ~ counts (hier_segment p q).
Proof.
  intros p q Hp [_ (n & H & E)]. cbn [hier_segment fe_el dimension] in H. pose proof (H 0%nat 0%nat ltac:(lia) ltac:(cbn; lia)) as H0.
  pose proof (H 1%nat 0%nat ltac:(lia) ltac:(cbn; lia)) as H1. pose proof (H 1%nat 1%nat ltac:(lia) ltac:(cbn; lia)) as H2.
  cbn in H0, H1, H2. injection H0 as H0. injection H1 as H1. injection H2 as H2.
  cbn in E. rewrite <- H0, <- H1, <- H2 in E. lia.
Qed.

(** *** Derivatives of the polynomials *)
Lemma qd_dx : forall F x y a b, qd F x y a b -> is_derive (fun s => F s y) x a.
Proof.
  intros F x y a b H. apply (qd_derive _ x y a 0).
  eapply qd_eq; [apply (qd_comp F (fun s _ => s) (fun _ _ => y) x y); [exact H|apply qd_fst|apply qd_const]| |]; ring.
Qed.
Lemma qd_dy : forall F x y a b, qd F x y a b -> is_derive (fun t => F x t) y b.
Proof.
  intros F x y a b H. apply (qd_derive _ y y b 0).
  eapply qd_eq; [apply (qd_comp F (fun _ _ => x) (fun s _ => s) y y); [exact H|apply qd_const|apply qd_fst]| |]; ring.
Qed.
Lemma legendre_derivatives : forall n x t,
  is_derive (fun s => legendre n s t) x (legendre_dx n x t) /\
  ((1 <= n)%nat -> is_derive (fun s => ilegendre n s t) x (ilegendre_dx n x t) /\ is_derive (fun s => ilegendre n x s) t (ilegendre_dt n x t)).
Proof.
  intros n x t. split; [eapply qd_dx, legendre_qd|]. intros H. pose proof (ilegendre_qd n x t H) as Q. split; [eapply qd_dx, Q|eapply qd_dy, Q].
Qed.
Lemma jacobi_derivatives : forall n al x, 0 <= al ->
  is_derive (jacobi n al) x (jacobi_dx n al x) /\ ((1 <= n)%nat -> is_derive (ijacobi n al) x (ijacobi_dx n al x)).
Proof.
  intros n al x H. split; [eapply (qd_derive _ x 0), jacobi_qd, H|]. intros Hn. eapply (qd_derive _ x 0), ijacobi_qd; auto.
Qed.
Lemma ends : forall n t, (legendre n 0 t = (- t) ^ n /\ legendre n t t = t ^ n) /\
  ((2 <= n)%nat -> ilegendre n 0 t = 0 /\ ilegendre n t t = 0).
Proof.
  intros n t. split; [split; [apply legendre_left|apply legendre_right]|]. intros H. split; [apply ilegendre_left|apply ilegendre_right]; auto.
Qed.

(** A rule of higher degree serves as well. *)
Lemma exponents_mono : forall t k k' e, (k' <= k)%nat -> In e (exponents t k') -> In e (exponents t k).
Proof.
  intros t k k' e H I. pose proof (exponents_len _ _ _ I) as L. destruct t; cbn [dimension] in L.
  - exact I.
  - destruct e as [|a [|]]; try discriminate L. apply (proj1 (in_exponents k a 0)). apply (proj1 (in_exponents k' a 0)) in I. lia.
  - destruct e as [|a [|b [|]]]; try discriminate L. apply (proj1 (proj2 (in_exponents k a b))). apply (proj1 (proj2 (in_exponents k' a b))) in I.
    unfold tdeg in *. lia.
  - destruct e as [|a [|b [|]]]; try discriminate L. apply (proj2 (proj2 (in_exponents k a b))). apply (proj2 (proj2 (in_exponents k' a b))) in I.
    unfold qdeg in *. lia.
Qed.
Lemma rule_lower : forall t k k' q, (k' <= k)%nat -> rule_for t k q -> rule_for t k' q.
Proof.
  intros t k k' q H [E P W X]. constructor; auto. apply exact_moments. intros e He. apply (exact_monomial q k e X).
  eapply exponents_mono; eauto.
Qed.
