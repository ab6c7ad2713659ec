(** The conversion of a parsed file is the one of the specification. *)
From Coq Require Import Reals Lra String Ascii List Arith NArith ZArith Bool Lia FunctionalExtensionality.
Import ListNotations.
From Verif Require Import Base GeoModel GmshModel MshModel MshReadModel MshReadSpec.
Local Open Scope list_scope.
Local Open Scope nat_scope.

Lemma each_iff : forall A B (f : A -> option B) (P : A -> B -> Prop), (forall a b, f a = Some b <-> P a b) -> forall l r, each f l = Some r <-> Forall2 P l r.
Proof.
  intros A B f P H l. induction l as [|a l IH]; intros r; cbn [each].
  - split; [intros E; injection E as <-; constructor | intros F; inversion F; reflexivity].
  - split.
    + destruct (f a) as [b|] eqn:Ea; [|discriminate]. destruct (each f l) as [r'|] eqn:El; [|discriminate]. intros E. injection E as <-. constructor; [apply H; exact Ea | apply IH; reflexivity].
    + intros F. inversion F as [|? b ? r' Hb Hr]; subst. rewrite (proj2 (H a b) Hb), (proj2 (IH r') Hr). reflexivity.
Qed.
Lemma etype_iff : forall t e, etype_of t = Some e <-> In (t, e) type_numbers.
Proof.
  intros t e. split.
  - unfold etype_of. intros H. destruct t as [|p|p]; try discriminate H.
    repeat (match type of H with context [match ?q with _ => _ end] => destruct q end; try discriminate H); injection H as <-; unfold type_numbers; cbn [In]; tauto.
  - intros H. unfold type_numbers in H. cbn [In] in H. repeat (destruct H as [H|H]; [injection H as <- <-; reflexivity|]). destruct H.
Qed.
Lemma real_iff : forall d r, real_of d = Some r <-> decimal_value d r.
Proof. intros d r. unfold real_of, decimal_value. split; [intros E; injection E as <-; reflexivity | intros ->; reflexivity]. Qed.
Lemma dim_iff : forall z n, dim_of z = Some n <-> z = Z.of_nat n.
Proof.
  intros z n. unfold dim_of. destruct (Z.ltb_spec z 0) as [H|H]; split; [discriminate | lia | intros E; injection E as <-; lia | intros ->; rewrite Nat2Z.id; reflexivity].
Qed.
Lemma pow2_52 : (2 ^ 52 = IZR (2 ^ 52))%R.
Proof. rewrite pow_IZR. f_equal. Qed.
Lemma scale : forall e, powerRZ 2 e = (IZR (2 ^ 52) * powerRZ 2 (e - 52))%R.
Proof. intros e. rewrite <- pow2_52. rewrite pow_powerRZ, <- powerRZ_add by lra. f_equal. change (Z.of_nat 52) with 52%Z. lia. Qed.
Lemma frac0 : forall p m t : R, p <> 0%R -> (m / p * (p * t) = m * t)%R.
Proof. intros p m t H. field. exact H. Qed.
Lemma frac1 : forall p m t : R, p <> 0%R -> ((1 + m / p) * (p * t) = (p + m) * t)%R.
Proof. intros p m t H. field. exact H. Qed.
Lemma pow52_nz : (2 ^ 52)%R <> 0%R.
Proof. apply pow_nonzero. lra. Qed.
Lemma some_iff : forall (a r : R), Some a = Some r <-> r = a.
Proof. intros a r. split; [intros H; injection H as H; symmetry; exact H | intros ->; reflexivity]. Qed.
Lemma double_iff : forall w r, double_of w = Some r <-> double_value w r.
Proof.
  intros w r. unfold double_of. destruct (N.leb_spec (2 ^ 64) w) as [Hw|Hw].
  { rewrite orb_true_r. split; [discriminate|]. intros (g & e & m & -> & H1 & H2 & _ & H3). exfalso. change (2 ^ 63)%N with 9223372036854775808%N in Hw. change (2 ^ 52)%N with 4503599627370496%N in *. change (2 ^ 64)%N with 18446744073709551616%N in Hw. lia. }
  rewrite orb_false_r. set (m := (w mod 2 ^ 52)%N). set (e := (w / 2 ^ 52 mod 2 ^ 11)%N). set (g := (w / 2 ^ 63)%N).
  assert (Ew : w = (g * 2 ^ 63 + e * 2 ^ 52 + m)%N).
  { assert (E1 := N.div_mod' w (2 ^ 52)). assert (E2 := N.div_mod' (w / 2 ^ 52) (2 ^ 11)). fold m in E1. fold e in E2.
    rewrite N.div_div in E2 by discriminate. change (2 ^ 52 * 2 ^ 11)%N with (2 ^ 63)%N in E2. fold g in E2. change (2 ^ 63)%N with (2 ^ 52 * 2 ^ 11)%N. nia. }
  assert (Hm : (m < 2 ^ 52)%N) by (apply N.mod_lt; discriminate). assert (He : (e < 2 ^ 11)%N) by (apply N.mod_lt; discriminate).
  assert (Hg : (g < 2)%N) by (apply N.div_lt_upper_bound; [discriminate | exact Hw]).
  assert (U : forall g' e' m', w = (g' * 2 ^ 63 + e' * 2 ^ 52 + m')%N -> (m' < 2 ^ 52)%N -> (e' < 2047)%N -> (g' < 2)%N -> g' = g /\ e' = e /\ m' = m).
  { clearbody m e g. intros g' e' m' E H1 H2 H3. rewrite Ew in E. change (2 ^ 63)%N with 9223372036854775808%N in E. change (2 ^ 52)%N with 4503599627370496%N in *. change (2 ^ 11)%N with 2048%N in *. lia. }
  clearbody m e g.
  assert (Es : (if (g =? 0)%N then 1%R else (-1)%R) = powerRZ (-1) (Z.of_N g)).
  { assert (C : g = 0%N \/ g = 1%N) by lia. destruct C as [-> | ->]; [reflexivity|]. change (powerRZ (-1) (Z.of_N 1)) with ((-1) * 1)%R. rewrite Rmult_1_r. reflexivity. }
  destruct (Z.eqb_spec (Z.of_N e) 2047) as [E|E].
  { split; [discriminate|]. intros (g' & e' & m' & H0 & H1 & H2 & _ & H3). destruct (U g' e' m' H0 H1 H2 H3) as (_ & -> & _). lia. }
  assert (He' : (e < 2047)%N) by (change (2 ^ 11)%N with 2048%N in He; lia).
  assert (V : forall x, double_value w x <-> x = (powerRZ (-1) (Z.of_N g) * (if (e =? 0)%N then IZR (Z.of_N m) / 2 ^ 52 * powerRZ 2 (-1022) else (1 + IZR (Z.of_N m) / 2 ^ 52) * powerRZ 2 (Z.of_N e - 1023)))%R).
  { intros x. split.
    - intros (g' & e' & m' & H0 & H1 & H2 & Hx & H3). destruct (U g' e' m' H0 H1 H2 H3) as (-> & -> & ->). exact Hx.
    - intros Hx. exists g, e, m. split; [exact Ew|]. split; [exact Hm|]. split; [exact He'|]. split; [exact Hx | exact Hg]. }
  rewrite V. clear V. rewrite Es.
  destruct (Z.eqb_spec (Z.of_N e) 0) as [E0|E0].
  - assert (C : e = 0%N) by lia. rewrite C. cbn [N.eqb].
    assert (Q : (IZR (Z.of_N m) / 2 ^ 52 * powerRZ 2 (-1022) = IZR (Z.of_N m) * powerRZ 2 (-1074))%R).
    { rewrite (scale (-1022)). change (-1022 - 52)%Z with (-1074)%Z. rewrite <- pow2_52. exact (frac0 _ _ _ pow52_nz). }
    rewrite Q. apply some_iff.
  - assert (C : (e =? 0)%N = false) by (apply N.eqb_neq; lia). rewrite C.
    assert (Q : ((1 + IZR (Z.of_N m) / 2 ^ 52) * powerRZ 2 (Z.of_N e - 1023) = IZR (2 ^ 52 + Z.of_N m) * powerRZ 2 (Z.of_N e - 1075))%R).
    { rewrite (scale (Z.of_N e - 1023)). replace (Z.of_N e - 1023 - 52)%Z with (Z.of_N e - 1075)%Z by lia. rewrite plus_IZR, <- pow2_52. exact (frac1 _ _ _ pow52_nz). }
    rewrite Q. apply some_iff.
Qed.
Section Values.
Variable D : Type.
Variable num : D -> option R.
Variable val : D -> R -> Prop.
Hypothesis num_iff : forall d r, num d = Some r <-> val d r.
Lemma point_vec : forall x y z, (fun i => match i with 0 => x | 1 => y | 2 => z | _ => 0%R end) = point x y z.
Proof. intros x y z. apply functional_extensionality. intros [|[|[|[|i]]]]; reflexivity. Qed.
Lemma node_iff : forall a b, node_of D num a = Some b <-> same_node D val a b.
Proof.
  intros [k [[x y] z]] b. unfold node_of. split.
  - destruct (num x) as [x'|] eqn:Ex; [|discriminate]. destruct (num y) as [y'|] eqn:Ey; [|discriminate]. destruct (num z) as [z'|] eqn:Ez; [|discriminate].
    intros E. injection E as <-. exists k, x, y, z, x', y', z'. split; [reflexivity|]. split; [rewrite point_vec; reflexivity|].
    split; [apply num_iff; exact Ex|]. split; apply num_iff; assumption.
  - intros (k0 & x0 & y0 & z0 & x' & y' & z' & E & -> & Hx & Hy & Hz). injection E as <- <- <- <-. apply num_iff in Hx, Hy, Hz. rewrite Hx, Hy, Hz, point_vec. reflexivity.
Qed.
Lemma name_iff : forall a b, name_of_ a = Some b <-> same_name a b.
Proof.
  intros [[d n] t] b. unfold name_of_. split.
  - destruct (dim_of d) as [d'|] eqn:Ed; [|discriminate]. intros E. injection E as <-. exists d', n, t. split; [|reflexivity]. rewrite (proj1 (dim_iff d d') Ed). reflexivity.
  - intros (d' & n0 & t0 & E & ->). injection E as -> -> ->. rewrite (proj2 (dim_iff _ d') eq_refl). reflexivity.
Qed.
Lemma element_iff : forall a b, element_of a = Some b <-> same_element a b.
Proof.
  intros a b. unfold element_of, same_element. split.
  - destruct (etype_of (e2_type a)) as [t|] eqn:Et; [|discriminate]. intros E. injection E as <-. split; [apply etype_iff; exact Et|]. split; reflexivity.
  - intros (Ht & Hp & Hn). rewrite (proj2 (etype_iff _ _) Ht). rewrite <- Hp, <- Hn. destruct b. reflexivity.
Qed.
Lemma gmsh2_iff : forall m g, gmsh2 D num m = Some g <-> exists f, g = V2 f /\ same2 D val m f.
Proof.
  intros m g. unfold gmsh2, same2. split.
  - destruct (each name_of_ (m2_names m)) as [ns|] eqn:E1; [|discriminate]. destruct (each (node_of D num) (m2_nodes m)) as [nd|] eqn:E2; [|discriminate].
    destruct (each element_of (m2_elements m)) as [es|] eqn:E3; [|discriminate]. intros E. injection E as <-. eexists. split; [reflexivity|]. cbn [f2_names f2_nodes f2_elements].
    split; [exact (proj1 (each_iff _ _ _ _ name_iff _ _) E1)|]. split; [exact (proj1 (each_iff _ _ _ _ node_iff _ _) E2) | exact (proj1 (each_iff _ _ _ _ element_iff _ _) E3)].
  - intros (f & -> & H1 & H2 & H3). apply (each_iff _ _ _ _ name_iff) in H1. apply (each_iff _ _ _ _ node_iff) in H2. apply (each_iff _ _ _ _ element_iff) in H3.
    rewrite H1, H2, H3. destruct f. reflexivity.
Qed.
Lemma block_iff : forall a b, block_of a = Some b <-> same_block a b.
Proof.
  intros [[[d t] ty] es] b. unfold block_of, same_block. split.
  - destruct (dim_of d) as [d'|] eqn:Ed; [|discriminate]. destruct (etype_of ty) as [ty'|] eqn:Et; [|discriminate]. intros E. injection E as <-. exists ty, es. cbn [eb_dim eb_entity eb_type eb_elements].
    split; [rewrite (proj1 (dim_iff d d') Ed); reflexivity|]. split; [apply etype_iff; exact Et | reflexivity].
  - intros (ty0 & es0 & E & Ht & He). injection E as -> -> -> ->. rewrite (proj2 (dim_iff _ (eb_dim b)) eq_refl), (proj2 (etype_iff _ _) Ht), <- He. destruct b. reflexivity.
Qed.
Lemma entities_iff : forall A B (f : A -> Z * list Z) (g : B -> Z * list Z) e h, by_dim f g e = h <-> same_entities f g e h.
Proof.
  intros A B f g [[[a b] c] d] h. split.
  - intros <-. split; [reflexivity|]. split; [reflexivity|]. split; [reflexivity|]. split; [reflexivity|]. intros [|[|[|[|k]]]] Hk; try lia. reflexivity.
  - intros (H0 & H1 & H2 & H3 & H4). apply functional_extensionality. intros [|[|[|[|k]]]]; cbn [by_dim]; symmetry; [exact H0 | exact H1 | exact H2 | exact H3 | apply H4; lia].
Qed.
Lemma node_block_iff : forall (a : node_block D) b, (match a with (_, _, _, l) => each (node_of D num) l end) = Some b <-> Forall2 (same_node D val) (snd a) b.
Proof. intros [[[x y] z] l] b. exact (each_iff _ _ _ _ node_iff l b). Qed.
Lemma gmsh4_iff : forall m g, gmsh4 D num m = Some g <-> exists f, g = V4 f /\ same4 D val m f.
Proof.
  intros m g. unfold gmsh4, same4.
  destruct (m4_partitioned m) as [[np gh] pe]. destruct (m4_nodes m) as [[[nn lo] hi] nb]. destruct (m4_elements m) as [[[ne lo'] hi'] eb]. split.
  - destruct (each name_of_ (m4_names m)) as [ns|] eqn:E1; [|discriminate].
    destruct (each (fun b : node_block D => match b with (_, _, _, l) => each (node_of D num) l end) nb) as [nd|] eqn:E2; [|discriminate].
    destruct (each block_of eb) as [es|] eqn:E3; [|discriminate]. intros E. injection E as <-. eexists. split; [reflexivity|].
    exists np, gh, pe, nn, lo, hi, nb, ne, lo', hi', eb. split; [reflexivity|]. split; [reflexivity|]. split; [reflexivity|].
    cbn [f4_names f4_entities f4_num_partitions f4_partitioned f4_min f4_max f4_nodes f4_blocks].
    split; [exact (proj1 (each_iff _ _ _ _ name_iff _ _) E1)|]. split; [apply entities_iff; reflexivity|]. split; [reflexivity|]. split; [apply entities_iff; reflexivity|].
    split; [reflexivity|]. split; [reflexivity|]. split; [exact (proj1 (each_iff _ _ _ _ node_block_iff _ _) E2) | exact (proj1 (each_iff _ _ _ _ block_iff _ _) E3)].
  - intros (f & -> & np0 & gh0 & pe0 & nn0 & lo0 & hi0 & nb0 & ne0 & lo0' & hi0' & eb0 & P1 & P2 & P3 & H1 & H2 & H3 & H4 & H5 & H6 & H7 & H8).
    injection P1 as <- <- <-. injection P2 as <- <- <- <-. injection P3 as <- <- <- <-.
    apply (each_iff _ _ _ _ name_iff) in H1. apply (each_iff _ _ _ _ node_block_iff) in H7. apply (each_iff _ _ _ _ block_iff) in H8.
    rewrite H1. rewrite H7. rewrite H8. apply entities_iff in H2, H4. rewrite <- H3, <- H5, <- H6. destruct f as [fn fe fp fpe fm fM fno fb]. cbn [f4_names f4_entities f4_num_partitions f4_partitioned f4_min f4_max f4_nodes f4_blocks] in *.
    rewrite <- H2, <- H4. reflexivity.
Qed.
End Values.
Lemma gmsh_iff : forall m g, gmsh m = Some g <-> same_file m g.
Proof.
  intros [[m|m]|[m|m]] g; cbn [gmsh].
  - rewrite (gmsh2_iff _ _ _ real_iff). split; [intros (f & -> & H); exact H|]. destruct g as [f|f]; [|intros []]. intros H. exists f. split; [reflexivity | exact H].
  - rewrite (gmsh2_iff _ _ _ double_iff). split; [intros (f & -> & H); exact H|]. destruct g as [f|f]; [|intros []]. intros H. exists f. split; [reflexivity | exact H].
  - rewrite (gmsh4_iff _ _ _ real_iff). split; [intros (f & -> & H); exact H|]. destruct g as [f|f]; [intros []|]. intros H. exists f. split; [reflexivity | exact H].
  - rewrite (gmsh4_iff _ _ _ double_iff). split; [intros (f & -> & H); exact H|]. destruct g as [f|f]; [intros []|]. intros H. exists f. split; [reflexivity | exact H].
Qed.
