(** Proofs for C71: auxiliary nodes and the numbering of the points. *)
From Coq Require Import Reals String List Arith Bool Lia Lra.
Import ListNotations.
From Verif Require Import Base MeshModel MeshView DofModel DofSpec AssembleModel GeoModel GeoSpec FeModel FeSpec FeToolsModel TransferSpec VtkModel VtkSpec VtkProofs VtkProofs2.

Section Lattice.
Local Open Scope R_scope.
Lemma frac_range : forall a n, (a <= n)%nat -> (0 < n)%nat -> 0 <= INR a / INR n <= 1.
Proof.
  intros a n H P. assert (PN : 0 < INR n) by (apply lt_0_INR; lia). pose proof (pos_INR a). pose proof (le_INR _ _ H). split.
  - apply Rmult_le_pos; [lra|]. left. apply Rinv_0_lt_compat. exact PN.
  - apply Rmult_le_reg_r with (INR n); [exact PN|]. unfold Rdiv. rewrite Rmult_assoc, Rinv_l by lra. lra.
Qed.
Lemma frac_sum : forall a b n, (a + b <= n)%nat -> (0 < n)%nat -> in_ref kTria [INR a / INR n; INR b / INR n].
Proof.
  intros a b n H P. pose proof (frac_range a n ltac:(lia) P). pose proof (frac_range b n ltac:(lia) P). pose proof (frac_range (a + b) n H P) as Q.
  rewrite plus_INR in Q. unfold Rdiv in *. rewrite Rmult_plus_distr_r in Q. cbn. lra.
Qed.
Lemma tria_in_ref : forall f o l x, aux_tria f o = Ok l -> In x l -> in_ref kTria x.
Proof.
  induction f as [|f IH]; intros o l x E Hx; [discriminate|]. destruct (le_lt_dec 5 o) as [G|G].
  - rewrite tria_unfold in E by exact G.
    assert (FR : forall y, In y (tri_corners o ++ tri_side o 0 ++ tri_side o 1 ++ tri_side o 2) -> in_ref kTria y).
    { intros y Hy. assert (PO : 0 < INR o) by (apply lt_0_INR; lia).
      apply in_app_iff in Hy. destruct Hy as [Hy|Hy].
      - unfold tri_corners in Hy. assert (1 = INR 1 /\ INR o - 2 = INR (o - 2)) as [E1 E2] by (split; [reflexivity|rewrite minus_INR by lia; reflexivity]).
        rewrite E2 in Hy. destruct Hy as [<-|[<-|[<-|[]]]]; [apply (frac_sum 1 1 o)|apply (frac_sum (o - 2) 1 o)|apply (frac_sum 1 (o - 2) o)]; lia.
      - rewrite !in_app_iff in Hy. unfold tri_side in Hy.
        destruct Hy as [Hy|[Hy|Hy]]; apply in_map_iff in Hy; destruct Hy as (k & <- & Hk); apply in_seq in Hk; cbn [nth fst snd]; apply frac_sum; lia. }
    destruct (5 <? o)%nat eqn:E5.
    + apply Nat.ltb_lt in E5. destruct (aux_tria f (o - 3)) as [pts| |] eqn:EP; try discriminate. cbn [bind] in E. unfold set_block in E.
      apply bind_ok in E. destruct E as (u & _ & E). apply Ok_inj in E. subst l. rewrite !in_app_iff in Hx. destruct Hx as [Hx|[Hx|Hx]].
      * destruct (tria_length o) as (l0 & L0 & L1); [lia|].
        rewrite firstn_app in Hx. apply in_app_iff in Hx. destruct Hx as [Hx|Hx].
        -- apply FR. rewrite <- (firstn_skipn (3 * o - 9) (tri_corners o ++ tri_side o 0 ++ tri_side o 1 ++ tri_side o 2)). apply in_app_iff. left; exact Hx.
        -- exfalso. rewrite !app_length, !side_length in Hx. change (length (tri_corners o)) with 3%nat in Hx. replace (3 * o - 9 - (3 + (o - 4 + (o - 4 + (o - 4)))))%nat with 0%nat in Hx by lia. exact Hx.
      * unfold tri_inner in Hx. apply in_map_iff in Hx. destruct Hx as (y & <- & Hy). specialize (IH _ _ _ EP Hy).
        destruct y as [|a [|b [|c y]]]; cbn in IH; try tauto. cbn [nth]. destruct IH as (A & B & AB).
        assert (P6 : 6 <= INR o). { replace 6 with (INR 6) by (cbn; lra). apply le_INR. lia. }
        assert (I0 : 0 < / INR o) by (apply Rinv_0_lt_compat; lra). assert (II : INR o * / INR o = 1) by (field; lra).
        unfold Rdiv. cbn. remember (INR o) as O. remember (/ O) as J.
        assert (0 <= a * (O - 6)) by (apply Rmult_le_pos; lra). assert (0 <= b * (O - 6)) by (apply Rmult_le_pos; lra).
        assert (0 <= a * (O - 6) * J) by (apply Rmult_le_pos; lra). assert (0 <= b * (O - 6) * J) by (apply Rmult_le_pos; lra).
        assert (C : 0 <= (1 - (a + b)) * (O - 6)) by (apply Rmult_le_pos; lra). assert (C2 : 0 <= (1 - (a + b)) * (O - 6) * J) by (apply Rmult_le_pos; lra).
        assert (EQ : (1 - (a + b)) * (O - 6) * J = 1 - 6 * J - (a * (O - 6) * J + b * (O - 6) * J)) by (replace ((1 - (a + b)) * (O - 6) * J) with ((1 - (a + b)) * (O * J - 6 * J)) by ring; replace (a * (O - 6) * J + b * (O - 6) * J) with ((a + b) * (O * J - 6 * J)) by ring; rewrite II; ring).
        split; [lra|]. split; lra.
      * exfalso. rewrite skipn_app in Hx. unfold tri_inner in Hx. rewrite !map_length in Hx.
        destruct (le_lt_dec (o - 3) 0); [lia|]. assert (EL : exists l', AuxNodesTria (o - 3) = Ok l' /\ length l' = NumAuxNodes kTria (o - 3)) by (apply tria_length; lia).
        assert (LP : length pts = NumAuxNodes kTria (o - 3)).
        { destruct (le_lt_dec 5 (o - 3)) as [G'|G'].
          - destruct f as [|f]; [discriminate|]. clear -EP G'. revert o pts EP G'. induction f as [|f IH2]; intros.
            + rewrite tria_unfold in EP by exact G'. destruct (5 <? o - 3)%nat eqn:E5; [discriminate|]. apply Ok_inj in EP. subst pts. apply Nat.ltb_ge in E5. assert (o = 8)%nat by lia. subst. reflexivity.
            + rewrite tria_unfold in EP by exact G'. destruct (5 <? o - 3)%nat eqn:E5.
              * apply bind_ok in EP. destruct EP as (p2 & _ & EP). unfold set_block in EP. apply bind_ok in EP. destruct EP as (u & HA & EP). apply lf_assert_ok in HA. apply Nat.leb_le in HA. apply Ok_inj in EP. subst pts.
                rewrite !app_length, firstn_length, skipn_length in *. rewrite !app_length, !side_length, repeat_length in *. change (length (tri_corners (o - 3))) with 3%nat in *. rewrite (tria_count (o - 3)) by lia. lia.
              * apply Ok_inj in EP. subst pts. apply Nat.ltb_ge in E5. assert (o = 8)%nat by lia. subst. reflexivity.
          - destruct f as [|f]; [discriminate|]. assert (o - 3 = 3 \/ o - 3 = 4)%nat as [Q|Q] by lia; rewrite Q in EP |- *; cbn in EP; apply Ok_inj in EP; subst pts; reflexivity. }
        rewrite LP in Hx. apply in_app_iff in Hx. destruct Hx as [Hx|Hx].
        -- rewrite skipn_all2 in Hx; [exact Hx|]. rewrite !app_length, !side_length. change (length (tri_corners o)) with 3%nat. lia.
        -- rewrite skipn_repeat in Hx. rewrite !app_length, !side_length in Hx. change (length (tri_corners o)) with 3%nat in Hx.
           replace (NumAuxNodes kTria (o - 3) - (3 * o - 9 + NumAuxNodes kTria (o - 3) - (3 + (o - 4 + (o - 4 + (o - 4))))))%nat with 0%nat in Hx by lia. exact Hx.
    + apply Ok_inj in E. subst l. apply Nat.ltb_ge in E5. assert (o = 5)%nat by lia. subst o. apply in_app_iff in Hx. destruct Hx as [Hx|Hx]; [auto|].
      cbn in Hx. contradiction.
  - cbn [aux_tria] in E. destruct (o <? 3)%nat eqn:E3; [apply Ok_inj in E; subst; contradiction|]. apply Nat.ltb_ge in E3.
    assert (o = 3 \/ o = 4)%nat as [-> | ->] by lia; cbn in E; apply Ok_inj in E; subst l; cbn in Hx; intuition; subst; cbn; lra.
Qed.
Lemma aux_in_ref : forall el o l x, (2 <= o)%nat -> aux_nodes el o = Ok l -> In x l -> in_ref el x.
Proof.
  intros el o l x Ho E Hx. destruct el; cbn [aux_nodes] in E.
  - apply Ok_inj in E. subst. contradiction.
  - rewrite aux_segment in E by exact Ho. apply Ok_inj in E. subst. apply in_map_iff in Hx. destruct Hx as (k & <- & Hk). apply in_seq in Hk. change (0 <= INR (S k) / INR o <= 1). apply frac_range; lia.
  - eapply tria_in_ref; eauto.
  - apply Ok_inj in E. subst. apply In_nth_error in Hx. destruct Hx as (q & Hq). assert (q < (o - 1) * (o - 1))%nat by (change ((o - 1) * (o - 1))%nat with (NumAuxNodes kQuad o); rewrite <- quad_length; apply nth_error_Some; congruence).
    rewrite quad_nth in Hq by auto. injection Hq as <-.
    assert (o - 1 <> 0)%nat by lia. pose proof (Nat.mod_upper_bound q (o - 1) H0). assert (q / (o - 1) < o - 1)%nat by (apply Nat.div_lt_upper_bound; lia).
    change (0 <= INR (S (q mod (o - 1))) / INR o <= 1 /\ 0 <= INR (S (q / (o - 1))) / INR o <= 1). split; apply frac_range; lia.
Qed.
(** The interior points in the order of VTK. *)
Lemma interior_nth : forall el o l k, (2 <= o)%nat -> el = kTria \/ el = kQuad -> aux_nodes el o = Ok l -> (k < vtk_interior el o)%nat ->
  let r := (corners el + corners el * (o - 1) + k)%nat in standard el o r -> nth_error l k = Some (vtk_position el o r).
Proof.
  intros el o l k Ho T E Hk r ST. unfold r in *. destruct T as [-> | ->]; cbn [aux_nodes] in E.
  - rewrite <- interior_count in Hk by (auto; lia). assert (O3 : (3 <= o)%nat). { destruct (le_lt_dec 3 o); auto. assert (o = 2)%nat by lia. subst. cbn in Hk. lia. }
    specialize (ST eq_refl). change (corners kTria) with 3%nat in *. rewrite (tria_nth o l k) by (auto; lia). unfold vtk_position.
    change (tri_lattice (S o) o 0 (3 + 3 * (o - 1) + k)) with
      (if (o =? 0)%nat then (0, 0)%nat else if (3 + 3 * (o - 1) + k <? 3)%nat then nth (3 + 3 * (o - 1) + k) [(0, 0); (0 + o, 0); (0, 0 + o)]%nat (0, 0)%nat
       else if (3 + 3 * (o - 1) + k <? 3 * o)%nat then let q := S ((3 + 3 * (o - 1) + k - 3) mod (o - 1)) in nth ((3 + 3 * (o - 1) + k - 3) / (o - 1)) [(0 + q, 0); (0 + (o - q), 0 + q); (0, 0 + (o - q))]%nat (0, 0)%nat
       else tri_lattice o (o - 3) 1 (3 + 3 * (o - 1) + k - 3 * o)).
    rewrite (proj2 (Nat.eqb_neq o 0)) by lia. rewrite (proj2 (Nat.ltb_ge _ _)) by lia. rewrite (proj2 (Nat.ltb_ge (3 + 3 * (o - 1) + k) (3 * o))) by lia.
    replace (3 + 3 * (o - 1) + k - 3 * o)%nat with k by lia. reflexivity.
  - apply Ok_inj in E. subst l. cbn [vtk_interior] in Hk. rewrite quad_nth by auto. unfold vtk_position, quad_lattice. change (corners kQuad) with 4%nat.
    rewrite (proj2 (Nat.ltb_ge _ 4)) by lia. rewrite (proj2 (Nat.ltb_ge _ _)) by lia. cbn [fst snd]. replace (4 + 4 * (o - 1) + k - (4 + 4 * (o - 1)))%nat with k by lia. reflexivity.
Qed.
End Lattice.

(** *** The numbering *)
Section Blocks.
Variable f : nat -> nat.
Definition before (i : nat) : nat := list_sum (map f (seq 0 i)).
Lemma before_S : forall i, before (S i) = before i + f i.
Proof. intros i. unfold before. rewrite seq_S, map_app, list_sum_app. cbn. lia. Qed.
Lemma before_le : forall i j, i <= j -> before i <= before j.
Proof. induction 1; [lia|]. rewrite before_S. lia. Qed.
Lemma before_lt : forall i j, i < j -> before i + f i <= before j.
Proof. intros i j H. rewrite <- before_S. apply before_le. lia. Qed.
Lemma before_inj : forall i k j q, k < f i -> q < f j -> before i + k = before j + q -> i = j /\ k = q.
Proof.
  intros i k j q Hk Hq E. destruct (lt_eq_lt_dec i j) as [[L|L]|L].
  - pose proof (before_lt i j L). lia.
  - subst. lia.
  - pose proof (before_lt j i L). lia.
Qed.
Lemma before_onto : forall N p, p < before N -> exists i k, i < N /\ k < f i /\ before i + k = p.
Proof.
  induction N as [|N IH]; intros p H; [cbn in H; lia|]. rewrite before_S in H. destruct (le_lt_dec (before N) p) as [G|G].
  - exists N, (p - before N). lia.
  - destruct (IH p G) as (i & k & A & B & C). exists i, k. lia.
Qed.
End Blocks.
