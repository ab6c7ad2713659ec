(** Product rules and the cache. *)
From Coq Require Import Reals List Arith Lia Lra Bool.
From Coquelicot Require Import Coquelicot.
Import ListNotations.
From Verif Require Import Base MeshModel MeshView DofModel RefPatModel GeoModel GeoSpec
  FeModel LagrModel QuadModel HierModel FeSpec QuadSpec Calc LagrProofs2 FeProofs LegendreProofs JacobiProofs OrthoProofs
  HierProofs HierProofs2 PolyProofs HierProofs3 QuadRuleModel QuadProofs.
Local Open Scope R_scope.

(** *** Weighted rules *)
Lemma mono_is_poly : forall k f, mono (xdeg k) f -> exists c, forall x, f x 0 = poly (exponents kSegment k) c [x].
Proof.
  intros k f M. induction M as [|a b c f (Ha & ->) M IH|f g E M IH].
  - exists (fun _ => 0). intros x. unfold poly. generalize (exponents kSegment k). intros l.
    induction l as [|e l IH]; [reflexivity|]. cbn [map rsum fold_right]. fold (rsum (map (fun e => 0 * monomial e [x]) l)). rewrite <- IH. ring.
  - destruct IH as (d & IH). exists (fun e => d e + c * if list_eq_dec Nat.eq_dec e [a] then 1 else 0). intros x. rewrite IH.
    assert (I : In [a] (exponents kSegment k)) by (apply (in_exponents k a 0); exact Ha).
    replace (x ^ a * 0 ^ 0) with (monomial [a] [x]) by (rewrite mono1; cbn [pow]; ring).
    rewrite <- (rsum_indicator (exponents kSegment k) [a] [x] (exponents_nodup _ _) I). unfold poly.
    generalize (exponents kSegment k). intros l. induction l as [|e l IHl]; cbn [map rsum fold_right]; [ring|].
    unfold rsum in IHl. rewrite <- IHl. ring.
  - destruct IH as (d & IH). exists d. intros x. rewrite <- IH. symmetry. apply E.
Qed.
Lemma weighted_mono : forall lo hi wt k pw f, exact_weighted lo hi wt k pw -> mono (xdeg k) f ->
  dot (snd pw) (map (fun x => f x 0) (fst pw)) = RInt (fun x => f x 0 * wt x) lo hi.
Proof.
  intros lo hi wt k pw f (_ & X) M. destruct (mono_is_poly k f M) as (c & E).
  rewrite (map_ext _ _ E). rewrite (X c). apply RInt_e. intros x. rewrite E. reflexivity.
Qed.
Lemma mono_pow : forall k a, (a <= k)%nat -> mono (xdeg k) (fun x _ => x ^ a).
Proof.
  intros k a H. eapply mono_eq; [|apply (mono_one (xdeg k) a 0 1)]; [intros; cbn [pow]; ring|split; auto].
Qed.

(** *** Segments *)
Lemma dot_singles : forall w (f : list R -> R) p, dot w (map f (map (fun x => [x]) p)) = dot w (map (fun x => f [x]) p).
Proof. intros. rewrite map_map. reflexivity. Qed.
Lemma half : forall degree, (degree <= 2 * (degree / 2 + 1) - 1)%nat.
Proof. intros d. pose proof (Nat.div_mod d 2 ltac:(lia)). pose proof (Nat.mod_upper_bound d 2 ltac:(lia)). lia. Qed.
Section Rules.
Variable leg jac : nat -> res (list R * list R).
Definition leg_ok (n : nat) : Prop := exists pw, leg n = Ok pw /\ length (fst pw) = n /\ exact_weighted 0 1 (fun _ => 1) (2 * n - 1) pw.
Definition jac_ok (n : nat) : Prop := exists pw, jac n = Ok pw /\ length (fst pw) = n /\ exact_weighted (-1) 1 (fun x => 1 - x) (2 * n - 1) pw.
Lemma segment_ok : forall degree, leg_ok (degree / 2 + 1) ->
  rule_ok (make_segment leg degree) kSegment (2 * (degree / 2 + 1) - 1).
Proof.
  intros degree (pw & E & L & X). unfold make_segment. cbv zeta. rewrite E. cbn [bind]. apply rule_by_moments.
  - apply forallb_forall. intros p H. apply in_map_iff in H. destruct H as (x & <- & _). reflexivity.
  - rewrite map_length. apply Nat.eqb_eq, X.
  - intros e He. cbn [exponents] in He. apply in_map_iff in He. destruct He as (a & <- & Ha). apply in_seq in Ha.
    rewrite dot_singles. rewrite (map_ext _ (fun x => x ^ a)) by (intros; apply mono1).
    rewrite (weighted_mono _ _ _ _ _ _ X (mono_pow (2 * (degree / 2 + 1) - 1) a ltac:(lia))). cbn [moment].
    rewrite (RInt_e _ (fun x => x ^ a)) by (intros; ring). rewrite int_pow, pow1. reflexivity.
Qed.

(** *** Grids *)
Lemma combine_app : forall A B (a b : list A) (c d : list B), length a = length c -> combine (a ++ b) (c ++ d) = combine a c ++ combine b d.
Proof. induction a; destruct c; cbn; intros; try discriminate; [reflexivity|]. f_equal. apply IHa. lia. Qed.
Lemma columns_grid : forall (a b : list R) (g : R -> R),
  columns (kron a (map g b)) (replicate (length a) b) = concat (map (fun x => map (fun y => [x * g y; y]) b) a).
Proof.
  intros a b g. unfold columns, kron, replicate. induction a as [|x a IH]; [reflexivity|].
  cbn [map concat length repeat]. rewrite combine_app by (rewrite !map_length; reflexivity). rewrite map_app, IH. f_equal.
  rewrite map_map. clear. induction b as [|y b IH]; cbn; congruence.
Qed.
Lemma dot_grid : forall (F : list R -> R) (h : R -> R -> list R) (a b w v : list R), length w = length a -> length v = length b ->
  dot (kron w v) (map F (concat (map (fun x => map (h x) b) a))) = dot w (map (fun x => dot v (map (fun y => F (h x y)) b)) a).
Proof.
  intros F h a b w v Lw Lv. revert w Lw. induction a as [|x a IH]; intros w Lw; destruct w as [|c w]; try discriminate Lw; [reflexivity|].
  unfold kron in *. cbn [map concat]. rewrite map_app, dot_app by (rewrite !map_length; exact Lv).
  rewrite IH by (cbn in Lw; lia). rewrite dot_cons. f_equal. clear -Lv. revert v Lv. induction b as [|y b IH]; intros [|d v] Lv; try discriminate Lv.
  - cbn. ring.
  - cbn [map] in *. rewrite !dot_cons. rewrite IH by (cbn in Lv; lia). ring.
Qed.
Lemma grid_product : forall (w v a b : list R) (P Q : R -> R) (G : R -> R -> R), (forall x y, G x y = P x * Q y) ->
  dot w (map (fun x => dot v (map (fun y => G x y) b)) a) = dot w (map P a) * dot v (map Q b).
Proof.
  intros w v a b P Q G H.
  rewrite (map_ext _ (fun x => dot v (map Q b) * P x)).
  - rewrite dot_scal. ring.
  - intros x. rewrite (map_ext _ (fun y => P x * Q y)) by apply H. rewrite dot_scal. ring.
Qed.
Lemma grid_points : forall (g : R -> R -> list R) (a b : list R), (forall x y, length (g x y) = 2%nat) ->
  forallb (fun p => (length p =? 2)%nat) (concat (map (fun x => map (g x) b) a)) = true.
Proof.
  intros g a b H. apply forallb_forall. intros p Hp. apply in_concat in Hp. destruct Hp as (l & Hl & Hp).
  apply in_map_iff in Hl. destruct Hl as (x & <- & _). apply in_map_iff in Hp. destruct Hp as (y & <- & _). rewrite H. reflexivity.
Qed.
Lemma kron_length : forall a b, length (kron a b) = (length a * length b)%nat.
Proof. intros a b. unfold kron. induction a; cbn [map concat length]; [reflexivity|]. rewrite app_length, map_length, IHa. reflexivity. Qed.
Lemma grid_length : forall (g : R -> R -> list R) (a b : list R), length (concat (map (fun x => map (g x) b) a)) = (length a * length b)%nat.
Proof. intros g a b. induction a; cbn [map concat length]; [reflexivity|]. rewrite app_length, map_length, IHa. reflexivity. Qed.

Lemma quad_ok : forall degree, leg_ok (degree / 2 + 1) ->
  rule_ok (make_quad leg degree) kQuad (2 * (degree / 2 + 1) - 1).
Proof.
  intros degree (pw & E & L & X). unfold make_quad. cbv zeta. rewrite E. cbn [bind]. set (n := (degree / 2 + 1)%nat) in *.
  destruct pw as (p & w). cbn [fst snd] in *. destruct X as (Lw & X0). cbn [fst snd] in Lw.
  assert (X : exact_weighted 0 1 (fun _ => 1) (2 * n - 1) (p, w)) by (split; [exact Lw|exact X0]).
  assert (Ep : columns (kron p (repeat 1 n)) (replicate n p) = concat (map (fun x => map (fun y => [x * 1; y]) p) p)).
  { rewrite <- (columns_grid p p (fun _ => 1)), L. do 2 f_equal. rewrite <- L. clear. induction p; cbn; congruence. }
  rewrite Ep. apply rule_by_moments.
  - apply grid_points. reflexivity.
  - apply Nat.eqb_eq. rewrite kron_length, grid_length, Lw. reflexivity.
  - intros e He. cbn [exponents] in He. apply in_map_iff in He. destruct He as ((a & b) & <- & Hab). apply in_prod_iff in Hab.
    destruct Hab as (Ha & Hb). apply in_seq in Ha, Hb. cbn [fst snd].
    rewrite (dot_grid (monomial [a; b]) (fun x y => [x * 1; y])) by auto.
    rewrite (grid_product w w p p (fun x => x ^ a) (fun y => y ^ b)) by (intros; rewrite mono2, Rmult_1_r; reflexivity).
    pose proof (weighted_mono _ _ _ _ _ _ X (mono_pow (2 * n - 1) a ltac:(lia))) as Ea. pose proof (weighted_mono _ _ _ _ _ _ X (mono_pow (2 * n - 1) b ltac:(lia))) as Eb.
    cbn [fst snd] in Ea, Eb. rewrite Ea, Eb. cbn [moment].
    rewrite (RInt_e _ (fun x => x ^ a)) by (intros; ring). rewrite (RInt_e (fun x => x ^ b * 1) (fun x => x ^ b)) by (intros; ring).
    rewrite !int_pow, !pow1. to_R. pose proof (INR_pos a). pose proof (INR_pos b). field. lra.
Qed.

(** *** Collapsed coordinates *)
Lemma duffy_ok : forall degree, leg_ok (degree / 2 + 1) -> jac_ok (degree / 2 + 1) ->
  rule_ok (make_duffy leg jac degree) kTria (2 * (degree / 2 + 1) - 1).
Proof.
  intros degree (pw & E & L & X) (jw & E' & L' & X'). unfold make_duffy. cbv zeta. rewrite E, E'. cbn [bind]. set (n := (degree / 2 + 1)%nat) in *.
  destruct pw as (p & w), jw as (jp & jw). cbn [fst snd] in *.
  assert (Lw : length w = length p) by apply X. assert (Ljw : length jw = length jp) by apply X'.
  set (jp' := map (fun x => (x + 1) / 2) jp). set (jw' := map (fun w => w * (1 / 4)) jw).
  assert (Ep : columns (kron p (map (fun y => 1 - y) jp')) (replicate n jp') = concat (map (fun x => map (fun y => [x * (1 - y); y]) jp') p)).
  { rewrite <- (columns_grid p jp' (fun y => 1 - y)), L. reflexivity. }
  rewrite Ep.
  assert (Ljw' : length jw' = length jp') by (unfold jw', jp'; rewrite !map_length; exact Ljw).
  apply rule_by_moments.
  - apply grid_points. reflexivity.
  - apply Nat.eqb_eq. rewrite kron_length, grid_length, Lw, Ljw'. reflexivity.
  - intros e He. cbn [exponents] in He. apply in_map_iff in He. destruct He as ((a & b) & <- & Hab). apply filter_In in Hab.
    cbn [fst snd] in *. destruct Hab as (_ & Hab). apply Nat.leb_le in Hab.
    rewrite (dot_grid (monomial [a; b]) (fun x y => [x * (1 - y); y])) by auto.
    rewrite (grid_product w jw' p jp' (fun x => x ^ a) (fun y => (1 - y) ^ a * y ^ b))
      by (intros; rewrite mono2, Rpow_mult_distr; ring).
    pose proof (weighted_mono _ _ _ _ _ _ X (mono_pow (2 * n - 1) a ltac:(lia))) as Ea. cbn [fst snd] in Ea. rewrite Ea.
    rewrite (RInt_e _ (fun x => x ^ a)) by (intros; ring). rewrite int_pow, pow1.
    (* the rule in y *)
    set (f := fun x : R => (1 - (x + 1) / 2) ^ a * ((x + 1) / 2) ^ b).
    assert (Ej : dot jw' (map (fun y => (1 - y) ^ a * y ^ b) jp') = 1 / 4 * dot jw (map f jp)).
    { unfold jw', jp'. rewrite map_map. fold f. clear. revert jw. induction jp as [|x jp IH]; intros jw; cbn [map].
      - rewrite !dot_nil. ring.
      - destruct jw as [|c jw]; [cbn; ring|]. cbn [map]. rewrite !dot_cons, IH. fold (f x). ring. }
    rewrite Ej.
    assert (Mf : mono (xdeg (2 * n - 1)) (fun x _ => f x)).
    { unfold f. apply (gr_up xdeg xdeg_mono (a + b)); [exact Hab|]. apply (gr_mult xdeg xdeg_add a b (fun x _ => (1 - (x + 1) / 2) ^ a)).
      - apply (gr_pow xdeg xdeg_zero xdeg_mono xdeg_add (fun x _ => 1 - (x + 1) / 2) a).
        apply (mono_eq _ (fun x _ => 1 / 2 - 1 / 2 * x)); [intros; field|].
        apply (mono_minus (xdeg 1)); [apply xdeg_const|]. apply (mono_scale _ (fun x _ => x)), xdeg_id.
      - apply (gr_pow xdeg xdeg_zero xdeg_mono xdeg_add (fun x _ => (x + 1) / 2) b).
        apply (mono_eq _ (fun x _ => 1 / 2 * x + 1 / 2)); [intros; field|].
        apply (mono_plus (xdeg 1)); [|apply xdeg_const]. apply (mono_scale _ (fun x _ => x)), xdeg_id. }
    pose proof (weighted_mono _ _ _ _ _ _ X' Mf) as Ef. cbn [fst snd] in Ef. change (map (fun x => f x) jp) with (map f jp) in Ef. rewrite Ef.
    assert (Sf : smooth (fun x => f x * (1 - x))).
    { apply smooth_mult; [|smooth_tac]. apply (mono_smooth _ (fun x _ => f x) 0 Mf). }
    assert (Es : RInt (fun x => f x * (1 - x)) (-1) 1 = RInt (fun y => 4 * ((1 - y) ^ S a * y ^ b)) 0 1).
    { pose proof (RInt_comp_lin (fun x => f x * (1 - x)) 2 (-1) 0 1 ltac:(apply smooth_int, Sf)) as C.
      replace (2 * 0 + -1) with (-1) in C by ring. replace (2 * 1 + -1) with 1 in C by ring. rewrite <- C.
      apply RInt_e. intros y. unfold scal; cbn [NormedModule.sort]. unfold f.
      change (mult 2 ((1 - (2 * y + -1 + 1) / 2) ^ a * ((2 * y + -1 + 1) / 2) ^ b * (1 - (2 * y + -1))) = 4 * ((1 - y) ^ S a * y ^ b)).
      unfold mult; cbn. replace ((2 * y + -1 + 1) / 2) with y by field. ring. }
    rewrite Es. rewrite RInt_c by smooth_tac. rewrite int_beta. cbn [moment]. to_R.
    replace (S a + b + 1)%nat with (a + b + 2)%nat by lia. rewrite fact_S. pose proof (INR_pos a). pose proof (INR_fact_neq_0 (a + b + 2)).
    field. split; auto. lra.
Qed.
End Rules.
