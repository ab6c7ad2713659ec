From Coq Require Import List Arith Lia Bool ZArith Reals Permutation Lra.
Import ListNotations.
From Verif Require Import Base MeshModel RefPatModel RefPatSpec RefPatProofs.
Local Open Scope Z_scope.

(** * C21 *)
Theorem children_count : forall P codim n l, implemented (p_el P) (p_pat P) = true ->
  NumChildren P codim = Ok n -> ChildPolygons P codim = Ok l -> n = length l.
Proof.
  intros [t p a lc] codim n l Hi. unfold NumChildren, ChildPolygons. cbn [p_el p_pat p_anchor p_lc] in *.
  destruct (codim <=? el_dim t)%nat; cbn [bind verify]; try discriminate.
  destruct t, p; try discriminate; destruct codim as [|[|[|c]]]; try discriminate;
    unfold seg_cells, seg_points, tria_cells, tria_edges, tria_points, quad_cells, quad_edges, quad_points, with_anchor;
    try (destruct a as [a|]; try discriminate); intros H1 H2; inversion H1; inversion H2; subst; reflexivity.
Qed.
Theorem children_outcome : forall P codim, (codim <= el_dim (p_el P))%nat ->
  implemented (p_el P) (p_pat P) = true ->
  (exists n, NumChildren P codim = Ok n) /\
  (good_anchor (p_el P) (p_pat P) (p_anchor P) -> exists l, ChildPolygons P codim = Ok l).
Proof.
  intros [t p a lc] codim Hc Hi. unfold NumChildren, ChildPolygons. cbn [p_el p_pat p_anchor p_lc] in *.
  apply Nat.leb_le in Hc as E. rewrite E. cbn [bind verify].
  destruct t, p; try discriminate; cbn in Hc; destruct codim as [|[|[|c]]]; try lia; try (split; eauto; fail);
    unfold seg_cells, seg_points, tria_cells, tria_edges, tria_points, quad_cells, quad_edges, quad_points, with_anchor;
    split; eauto; intros Ha; destruct a as [a|]; cbn in Ha; try discriminate; eauto.
Qed.
Theorem rejected : forall P codim, (p_el P = kTria \/ p_el P = kQuad) -> (codim < 2)%nat ->
  implemented (p_el P) (p_pat P) = false -> NumChildren P codim = Throw /\ ChildPolygons P codim = Throw.
Proof.
  intros [t p a lc] codim Ht Hc Hi; cbn [p_el] in Ht; destruct Ht as [->| ->]; unfold NumChildren, ChildPolygons; cbn [p_el p_pat p_anchor p_lc] in *;
  destruct p; try discriminate; destruct codim as [|[|c]]; try lia; split; reflexivity.
Qed.
Theorem missing_anchor : forall P codim, (p_el P = kTria \/ p_el P = kQuad) -> (codim < 2)%nat ->
  needs_anchor (p_el P) (p_pat P) = true -> p_anchor P = None -> ChildPolygons P codim = Throw.
Proof.
  intros [t p a lc] codim Ht Hc Hi; cbn [p_el] in Ht; destruct Ht as [->| ->]; unfold ChildPolygons; cbn [p_el p_pat p_anchor p_lc] in *; intros ->;
  destruct p; try discriminate; destruct codim as [|[|c]]; try lia; reflexivity.
Qed.

(** * Checking equality of collections of unordered segments *)
Section Segs.
Variable A : Type.
Variable eqA : A -> A -> bool.
Hypothesis eqA_ok : forall a b, eqA a b = true -> a = b.
Definition seg_eqb (s s' : A * A) : bool :=
  (eqA (fst s) (fst s') && eqA (snd s) (snd s')) || (eqA (fst s) (snd s') && eqA (snd s) (fst s')).
Fixpoint remove_seg (s : A * A) (l : list (A * A)) : option (list (A * A)) :=
  match l with
  | [] => None
  | x :: r => if seg_eqb s x then Some r
              else match remove_seg s r with Some r' => Some (x :: r') | None => None end
  end.
Fixpoint segs_check (l l' : list (A * A)) : bool :=
  match l with
  | [] => match l' with [] => true | _ => false end
  | x :: r => match remove_seg x l' with Some l2 => segs_check r l2 | None => false end
  end.
Lemma seg_eqb_ok : forall s s', seg_eqb s s' = true -> same_seg s s'.
Proof.
  intros [a b] [c d]. unfold seg_eqb, same_seg. cbn [fst snd]. intros H. apply orb_true_iff in H as [H|H];
  apply andb_true_iff in H as [H1 H2]; apply eqA_ok in H1, H2; subst; auto.
Qed.
Lemma same_seg_sym : forall s s' : A * A, same_seg s s' -> same_seg s' s.
Proof. intros [a b] [c d] [H|H]; inversion H; subst; [left|right]; auto. Qed.
Lemma remove_ok : forall s l r, remove_seg s l = Some r -> exists x, same_seg s x /\ Permutation l (x :: r).
Proof.
  intros s. induction l as [|y l IH]; intros r H; simpl in H; try discriminate.
  destruct (seg_eqb s y) eqn:E.
  - inversion H; subst. exists y. split; auto. apply seg_eqb_ok; auto.
  - destruct (remove_seg s l) as [r'|] eqn:E2; try discriminate. inversion H; subst.
    destruct (IH r' eq_refl) as (x & Hx & P). exists x. split; auto.
    rewrite P. apply perm_swap.
Qed.
Lemma Forall2_perm : forall (R : A * A -> A * A -> Prop) l1 l2 l2', Forall2 R l1 l2 -> Permutation l2 l2' ->
  exists l1', Permutation l1 l1' /\ Forall2 R l1' l2'.
Proof.
  intros R l1 l2 l2' H P. revert l1 H. induction P; intros l1 H.
  - inversion H; subst. exists []. auto.
  - inversion H; subst. destruct (IHP _ H4) as (l1' & P1 & F). exists (x0 :: l1'). auto.
  - inversion H as [|a1 ? la ? Ha H3]; subst. inversion H3 as [|b1 ? lb ? Hb H4]; subst.
    exists (b1 :: a1 :: lb). split; auto using perm_swap.
  - destruct (IHP1 _ H) as (l1' & Q1 & F1). destruct (IHP2 _ F1) as (l1'' & Q2 & F2). exists l1''.
    split; auto. eapply perm_trans; eauto.
Qed.
Lemma segs_check_ok : forall l l', segs_check l l' = true -> same_segs l l'.
Proof.
  induction l as [|s l IH]; intros l' H; simpl in H.
  - destruct l'; try discriminate. exists []. auto.
  - destruct (remove_seg s l') as [r|] eqn:E; try discriminate. apply remove_ok in E as (x & Hx & P).
    destruct (IH r H) as (l2 & P2 & F2).
    destruct (Forall2_perm same_seg (s :: l2) (x :: r) l') as (l3 & P3 & F3); auto.
    { apply Permutation_sym; auto. }
    exists l3. split; auto. rewrite P2. auto.
Qed.
End Segs.
Lemma same_segs_map : forall A B (f : A -> B) l l', same_segs l l' ->
  same_segs (map (fun s => (f (fst s), f (snd s))) l) (map (fun s => (f (fst s), f (snd s))) l').
Proof.
  intros A B f l l' (l2 & P & F). exists (map (fun s => (f (fst s), f (snd s))) l2). split; [apply Permutation_map; auto|].
  clear P. induction F; simpl; constructor; auto. destruct H as [->| ->]; [left|right]; auto.
Qed.
Lemma sides_map : forall A B (f : A -> B) l, sides (map f l) = map (fun s => (f (fst s), f (snd s))) (sides l).
Proof.
  intros A B f [|a l]; auto. unfold sides. cbn [map].
  assert (H : forall l1 l2, combine (map f l1) (map f l2) = map (fun s => (f (fst s), f (snd s))) (combine l1 l2)).
  { induction l1; destruct l2; simpl; auto. rewrite IHl1. auto. }
  rewrite <- H. cbn [map]. f_equal. rewrite map_app. auto.
Qed.

(** * C23 at lattice constant 6 *)
Definition lp_eqb (a b : lpoint) : bool := if list_eq_dec Z.eq_dec a b then true else false.
Lemma lp_eqb_ok : forall a b, lp_eqb a b = true -> a = b.
Proof. intros a b. unfold lp_eqb. destruct (list_eq_dec Z.eq_dec a b); auto. discriminate. Qed.

Definition l_corners (t : refel) : list lpoint :=
  match t with kTria => [[0; 0]; [6; 0]; [0; 6]] | _ => [[0; 0]; [6; 0]; [6; 6]; [0; 6]] end.
Definition l_mid (a b : lpoint) : lpoint :=
  [(nth 0 a 0 + nth 0 b 0) / 2; (nth 1 a 0 + nth 1 b 0) / 2].
Definition l_trace (t : refel) (split : list nat) (j : nat) : list (lpoint * lpoint) :=
  let c := l_corners t in
  let a := nth j c [] in let b := nth (S j mod length c) c [] in
  if existsb (Nat.eqb j) split then [(a, l_mid a b); (l_mid a b, b)] else [(a, b)].
Definition l_traces (t : refel) (split : list nat) : list (lpoint * lpoint) :=
  flat_map (l_trace t split) (seq 0 (length (l_corners t))).
Definition l_pair (l : lpoly) : lpoint * lpoint := (nth 0 l [], nth 1 l []).
Definition anchor_of (a : option nat) : nat := match a with Some k => k | None => 0%nat end.

Definition l_inside (t : refel) (c : lpoint) : bool :=
  match t with
  | kTria => (0 <? nth 0 c 0) && (0 <? nth 1 c 0) && (nth 0 c 0 + nth 1 c 0 <? 6)
  | _ => (0 <? nth 0 c 0) && (nth 0 c 0 <? 6) && (0 <? nth 1 c 0) && (nth 1 c 0 <? 6)
  end.
Definition get (x : res (list lpoly)) : list lpoly := match x with Ok l => l | _ => [] end.
Definition c23_check (t : refel) (p : refpat) (a : option nat) : bool :=
  let P := mkPattern t p a 6 in
  let cs := get (ChildPolygons P 0) in let es := get (ChildPolygons P 1) in let ps := get (ChildPolygons P 2) in
  segs_check _ lp_eqb (flat_map sides cs)
    (l_traces t (split_edges t p (anchor_of a)) ++ map l_pair es ++ map l_pair es) &&
  forallb (fun e => match e with
     | [[x0; y0]; [x1; y1]] => match t with
         | kTria => (0 <? x0 + x1) && (0 <? y0 + y1) && (x0 + x1 + y0 + y1 <? 12)
         | _ => (0 <? x0 + x1) && (x0 + x1 <? 12) && (0 <? y0 + y1) && (y0 + y1 <? 12)
         end
     | _ => false end) es &&
  forallb (fun q => match q with [c] => l_inside t c && existsb (fun poly => existsb (lp_eqb c) poly) cs | _ => false end) ps &&
  forallb (fun poly => forallb (fun c => implb (l_inside t c) (existsb (fun q => match q with [c'] => lp_eqb c c' | _ => false end) ps)) poly) cs.

Lemma c23_checked : forall t p a, (t = kTria \/ t = kQuad) -> p <> rp_nil -> implemented t p = true ->
  good_anchor t p a -> c23_check t p a = true.
Proof.
  intros t p a [->| ->] Hp Hi Ha;
  destruct p; try contradiction; try discriminate; destruct a as [k|]; cbn in Ha; try discriminate;
  try (destruct k as [|[|[|[|k]]]]; [| | | |lia]); try lia; reflexivity.
Qed.

Local Open Scope R_scope.
Lemma traces_ref : forall t sp, (t = kTria \/ t = kQuad) ->
  map (fun s => (to_ref 6 (fst s), to_ref 6 (snd s))) (l_traces t sp) = boundary_traces t sp.
Proof.
  intros t sp Ht.
  unfold l_traces, boundary_traces. rewrite flat_map_concat_map, flat_map_concat_map, concat_map, map_map.
  destruct Ht as [->| ->]; cbn [length l_corners ref_corners seq map]; f_equal.
  all: repeat apply (f_equal2 cons); try reflexivity; unfold l_trace, trace; cbn [l_corners ref_corners length];
    match goal with |- context [existsb ?f ?s] => destruct (existsb f s) end; cbn [map]; cbv [l_mid to_ref fst snd nth midpoint Nat.modulo Nat.divmod Nat.sub];
    repeat match goal with |- context [IZR (?z / ?w)] =>
             let z' := eval vm_compute in (z / w)%Z in change (IZR (z / w)) with (IZR z') end;
    repeat (apply (f_equal2 cons); [repeat apply (f_equal2 pair); lra|]); reflexivity.
Qed.
Lemma to_ref6_inj : forall a b, length a = 2%nat -> length b = 2%nat -> to_ref 6 a = to_ref 6 b -> a = b.
Proof.
  intros [|x [|y [|]]] [|x' [|y' [|]]]; try discriminate. intros _ _ H. unfold to_ref in H. cbn [nth] in H.
  injection H as H1 H2. assert (IZR x = IZR x') by lra. assert (IZR y = IZR y') by lra.
  apply eq_IZR in H, H0. subst. auto.
Qed.

Lemma forallb_In : forall A (f : A -> bool) l x, forallb f l = true -> In x l -> f x = true.
Proof. intros. rewrite forallb_forall in H. auto. Qed.

Theorem trace6 : forall t p a, (t = kTria \/ t = kQuad) -> p <> rp_nil -> implemented t p = true ->
  good_anchor t p a -> forall cs es ps,
  ChildPolygons (mkPattern t p a 6) 0 = Ok cs -> ChildPolygons (mkPattern t p a 6) 1 = Ok es ->
  ChildPolygons (mkPattern t p a 6) 2 = Ok ps ->
  let R := map (map (to_ref 6)) in
  same_segs (flat_map sides (R cs))
    (boundary_traces t (split_edges t p (anchor_of a)) ++ map pair_of (R es) ++ map pair_of (R es)) /\
  (forall e, In e (R es) -> length e = 2%nat /\ inside_ref t (midpoint (fst (pair_of e)) (snd (pair_of e)))) /\
  (forall q, In q (R ps) -> length q = 1%nat) /\
  (forall q, In [q] (R ps) <-> (inside_ref t q /\ exists c, In c (R cs) /\ In q c)).
Proof.
  intros t p a Ht Hp Hi Ha cs es ps E0 E1 E2 R. pose proof (c23_checked t p a Ht Hp Hi Ha) as C.
  unfold c23_check in C. rewrite E0, E1, E2 in C. cbn [get] in C.
  apply andb_true_iff in C as [C C4]. apply andb_true_iff in C as [C C3]. apply andb_true_iff in C as [C1 C2].
  assert (IN : forall c, l_inside t c = true <-> inside_ref t (to_ref 6 c)).
  { intros c. destruct Ht as [->| ->]; unfold l_inside, inside_ref, to_ref; cbn [fst snd];
    rewrite !andb_true_iff, !Z.ltb_lt; set (x := nth 0 c 0%Z); set (y := nth 1 c 0%Z); split.
    - intros [[H1 H2] H3]. apply IZR_lt in H1, H2, H3. rewrite plus_IZR in H3. lra.
    - intros (H1 & H2 & H3). split; [split|]; apply lt_IZR; rewrite ?plus_IZR; lra.
    - intros [[[H1 H2] H3] H4]. apply IZR_lt in H1, H2, H3, H4. lra.
    - intros [[H1 H2] [H3 H4]]. split; [split; [split|]|]; apply lt_IZR; lra. }
  split; [|split; [|split]].
  - apply segs_check_ok in C1; [|exact lp_eqb_ok]. apply (same_segs_map _ _ (to_ref 6)) in C1.
    rewrite !map_app, traces_ref in C1 by auto.
    assert (S : map (fun s => (to_ref 6 (fst s), to_ref 6 (snd s))) (flat_map sides cs) = flat_map sides (R cs)).
    { unfold R. clear. induction cs as [|c cs IH]; auto. cbn [flat_map map]. rewrite map_app, IH, sides_map. auto. }
    rewrite S in C1.
    assert (Q : map (fun s => (to_ref 6 (fst s), to_ref 6 (snd s))) (map l_pair es) = map pair_of (R es)).
    { unfold R. rewrite !map_map. apply map_ext_in. intros e He. apply (forallb_In _ _ _ _ C2) in He.
      destruct e as [|[|x0 [|y0 []]] [|[|x1 [|y1 []]] []]]; try discriminate; reflexivity. }
    rewrite Q in C1. exact C1.
  - intros e He. unfold R in He. apply in_map_iff in He as (f & <- & Hf). apply (forallb_In _ _ _ _ C2) in Hf.
    destruct f as [|[|x0 [|y0 []]] [|[|x1 [|y1 []]] []]]; try discriminate. split; auto.
    unfold inside_ref, midpoint, pair_of, to_ref. cbn [map nth fst snd].
    destruct Ht as [->| ->]; rewrite !andb_true_iff, !Z.ltb_lt in Hf.
    + destruct Hf as [[H1 H2] H3]. apply IZR_lt in H1, H2, H3. rewrite ?plus_IZR in *. lra.
    + destruct Hf as [[[H1 H2] H3] H4]. apply IZR_lt in H1, H2, H3, H4. rewrite ?plus_IZR in *. lra.
  - intros q Hq. unfold R in Hq. apply in_map_iff in Hq as (f & <- & Hf). apply (forallb_In _ _ _ _ C3) in Hf.
    destruct f as [|c []]; try discriminate. auto.
  - intros q. split.
    + intros Hq. unfold R in Hq. apply in_map_iff in Hq as (f & E & Hf). apply (forallb_In _ _ _ _ C3) in Hf.
      destruct f as [|c []]; try discriminate. cbn in E. inversion E; subst. apply andb_true_iff in Hf as [H1 H2].
      split; [apply IN; auto|]. apply existsb_exists in H2 as (poly & Hpoly & H2). apply existsb_exists in H2 as (c' & Hc & H2).
      apply lp_eqb_ok in H2. subst c'. exists (map (to_ref 6) poly). split; [apply in_map; auto|apply in_map; auto].
    + intros (Hin & c & Hc & Hq). unfold R in Hc. apply in_map_iff in Hc as (poly & <- & Hpoly).
      apply in_map_iff in Hq as (x & <- & Hx). apply IN in Hin. apply (forallb_In _ _ _ _ C4) in Hpoly.
      apply (forallb_In _ _ _ _ Hpoly) in Hx. rewrite Hin in Hx. cbn [implb] in Hx.
      apply existsb_exists in Hx as (q & Hq & Hx). destruct q as [|c' []]; try discriminate. apply lp_eqb_ok in Hx. subst c'.
      unfold R. apply in_map_iff. exists [x]. auto.
Qed.

Lemma with_lc_eq : forall P, with_lc P 6 = mkPattern (p_el P) (p_pat P) (p_anchor P) 6.
Proof. auto. Qed.

Theorem tiling : forall P k l, (p_el P = kTria \/ p_el P = kQuad) -> (k > 0)%Z -> p_lc P = (6 * k)%Z ->
  p_pat P <> rp_nil -> good_anchor (p_el P) (p_pat P) (p_anchor P) ->
  ChildPolygons P 0 = Ok l -> tiles (p_el P) (map (map (to_ref (p_lc P))) l).
Proof.
  intros P k l Ht Hk Hlc Hn Ha H. destruct (lc6 P k 0 l Hk Hlc H) as (l6 & H6 & ->).
  assert (Hi : implemented (p_el P) (p_pat P) = true).
  { destruct (implemented (p_el P) (p_pat P)) eqn:E; auto. destruct (rejected P 0 Ht) as [_ R]; auto. congruence. }
  pose proof (tiling6 (p_el P) (p_pat P) (p_anchor P) Ht Hn Hi Ha) as T. unfold polys6 in T.
  rewrite with_lc_eq in H6. rewrite H6 in T. exact T.
Qed.
Theorem traces : forall P k cs es ps, (p_el P = kTria \/ p_el P = kQuad) -> (k > 0)%Z -> p_lc P = (6 * k)%Z ->
  p_pat P <> rp_nil -> good_anchor (p_el P) (p_pat P) (p_anchor P) ->
  ChildPolygons P 0 = Ok cs -> ChildPolygons P 1 = Ok es -> ChildPolygons P 2 = Ok ps ->
  let R := map (map (to_ref (p_lc P))) in
  same_segs (flat_map sides (R cs))
    (boundary_traces (p_el P) (split_edges (p_el P) (p_pat P) (anchor_of (p_anchor P))) ++
     map pair_of (R es) ++ map pair_of (R es)) /\
  (forall e, In e (R es) -> length e = 2%nat /\ inside_ref (p_el P) (midpoint (fst (pair_of e)) (snd (pair_of e)))) /\
  (forall q, In q (R ps) -> length q = 1%nat) /\
  (forall q, In [q] (R ps) <-> (inside_ref (p_el P) q /\ exists c, In c (R cs) /\ In q c)).
Proof.
  intros P k cs es ps Ht Hk Hlc Hn Ha H0 H1 H2.
  assert (Hi : implemented (p_el P) (p_pat P) = true).
  { destruct (implemented (p_el P) (p_pat P)) eqn:E; auto. destruct (rejected P 0 Ht) as [_ R]; auto. congruence. }
  destruct (lc6 P k 0 cs Hk Hlc H0) as (c6 & E0 & F0). destruct (lc6 P k 1 es Hk Hlc H1) as (e6 & E1 & F1).
  destruct (lc6 P k 2 ps Hk Hlc H2) as (p6 & E2 & F2). cbv zeta. rewrite F0, F1, F2.
  rewrite with_lc_eq in E0, E1, E2. exact (trace6 _ _ _ Ht Hn Hi Ha c6 e6 p6 E0 E1 E2).
Qed.

Theorem constructed : forall t p a P, new_pattern t p a = Ok P ->
  p_el P = t /\ p_pat P = p /\ p_anchor P = a /\ p_lc P = (6 * 1)%Z /\
  (needs_anchor t p = true -> a = None \/ good_anchor t p a) /\ (needs_anchor t p = false -> good_anchor t p a).
Proof.
  intros t p a P H. unfold new_pattern in H. destruct a as [k|].
  - destruct (k <? num_edges t)%nat eqn:E; cbn in H; inversion H; subst. apply Nat.ltb_lt in E. cbn. tauto.
  - inversion H; subst. cbn. tauto.
Qed.
