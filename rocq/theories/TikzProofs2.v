(** Proofs for C104: the drawing. *)
From Coq Require Import String Ascii List Arith NArith ZArith QArith Qabs Bool Lia.
Import ListNotations.
From Verif Require Import Base MeshModel MeshView DofModel AssembleModel.
From Verif Require Import MshModel MshSpec MshProofs WriteModel WriteSpec WriteProofs WriteProofs2 WriteProofs3 TikzModel TikzSpec TikzProofs.
Local Open Scope list_scope.
Local Open Scope nat_scope.

(** *** Points *)
Lemma six_eq : forall d x y, (x == y)%Q -> six_digits d x -> six_digits d y.
Proof.
  intros d x y E [H1 H2]. split; [rewrite <- E; exact H1|]. intros k e Hk Hy. rewrite <- E in Hy |- *. apply (H2 k e Hk Hy).
Qed.
Definition eqp (p q : point) : Prop := (fst p == fst q)%Q /\ (snd p == snd q)%Q.
Lemma same_eq : forall d p q, eqp p q -> same_point d p -> same_point d q.
Proof. intros d p q [E1 E2] [H1 H2]. split; [apply (six_eq _ _ _ E1 H1)|apply (six_eq _ _ _ E2 H2)]. Qed.
Lemma coords_spec : forall v k, exists x y sx sy, coords v k = sx ++ str "," ++ sy /\ real x sx /\ real y sy /\ same_point (x, y) (nth k v (0, 0)%Q).
Proof.
  intros v k. destruct (show_g_spec (fst (nth k v (0, 0)%Q))) as (x & Rx & Sx & _). destruct (show_g_spec (snd (nth k v (0, 0)%Q))) as (y & Ry & Sy & _).
  exists x, y, (show_g (fst (nth k v (0, 0)%Q))), (show_g (snd (nth k v (0, 0)%Q))). repeat split; try assumption; try apply Sx; try apply Sy.
Qed.
Lemma fold_sum : forall (f : point -> Q) l s, (fold_left (fun s v => s + f v) l s == s + sumQ (map f l))%Q.
Proof.
  intros f l. induction l as [|v l IH]; intro s; cbn [fold_left map sumQ fold_right]; [ring|]. rewrite IH. fold (sumQ (map f l)). ring.
Qed.
Lemma center_eq : forall l, eqp (center_of l) (centre l).
Proof.
  intro l. unfold center_of, centre, eqp. cbn [fst snd]. split.
  - rewrite (fold_sum fst l 0). rewrite Qplus_0_l. reflexivity.
  - rewrite (fold_sum snd l 0). rewrite Qplus_0_l. reflexivity.
Qed.
Lemma mix_towards : forall a b t c c' v, (a == 1 - t)%Q -> (b == t)%Q -> eqp c c' -> eqp (mix a b c v) (towards t c' v).
Proof.
  intros a b t c c' v Ha Hb [E1 E2]. unfold mix, towards, eqp. cbn [fst snd]. rewrite Ha, Hb, E1, E2. split; ring.
Qed.
Lemma towards_0 : forall c v, eqp v (towards 0 c v).
Proof. intros c v. unfold towards, eqp. cbn [fst snd]. split; ring. Qed.

(** *** Texts *)
Lemma show_chars : forall i, Forall (fun d => negb (Ascii.eqb d "}") = true) (show i).
Proof.
  intro i. unfold show. destruct (show_N_digits (N.of_nat i)) as (ds & _ & [Hd ->] & _). apply Forall_map. eapply Forall_impl; [|exact Hd]. intros d Hd'.
  assert (C : (d = 0 \/ d = 1 \/ d = 2 \/ d = 3 \/ d = 4 \/ d = 5 \/ d = 6 \/ d = 7 \/ d = 8 \/ d = 9)%N) by (cbn in Hd'; lia).
  repeat (destruct C as [->|C]; [reflexivity|]). subst d. reflexivity.
Qed.
Lemma show_same : forall i, same_text (show i) (Number i).
Proof. intro i. cbn [same_text]. rewrite <- (app_nil_r (show i)). apply index_reads. exact I. Qed.
Definition clean (o : chars) : Prop := Forall (fun d => negb (Ascii.eqb d "]") = true) o.
Definition pt (sx sy : chars) (x y : decimal) : chars * element := (str " (" ++ sx ++ str "," ++ sy ++ str ")", At x y).
Definition lab (o t : chars) : chars * element := (str " node[" ++ o ++ str "] {" ++ t ++ str "}", Label o t).
Definition ln : chars * element := (str " --", Line).
Definition cy : chars * element := (str " cycle", Cycle).
Lemma shown_line : forall o items f g t, clean o -> Forall (fun x => el (fst x) (snd x)) items -> figure_of (Draw o (map snd items)) = Some f -> same_figure f g ->
  t = str "\draw[" ++ o ++ str "]" ++ concat (map fst items) ++ str ";" ++ newline -> shown t [g].
Proof.
  intros o items f g t Ho Hi Hf Hs ->.
  replace (str "\draw[" ++ o ++ str "]" ++ concat (map fst items) ++ str ";" ++ newline) with ((str "\draw[" ++ o ++ str "]" ++ concat (map fst items) ++ str ";") ++ newline) by (rewrite <- !app_assoc; reflexivity).
  apply (shown_one _ (Draw o (map snd items)) f g); [apply cmd_draw; assumption|exact Hf|exact Hs].
Qed.
Ltac els := repeat (first [apply Forall_nil|apply Forall_cons]); cbn [fst snd]; first [apply el_at; assumption|apply el_line|apply el_cycle|apply el_label; [repeat constructor|first [apply show_chars|repeat constructor]]].
Ltac coord k := match goal with |- context [coords ?v k] => let x := fresh "x" in let y := fresh "y" in let sx := fresh "sx" in let sy := fresh "sy" in let E := fresh "E" in let Hx := fresh "Hx" in let Hy := fresh "Hy" in
  destruct (coords_spec v k) as (x & y & sx & sy & E & Hx & Hy & ?); rewrite E; clear E end.
Ltac text := cbn [map fst concat pt lab ln cy app]; rewrite <- ?app_assoc; reflexivity.

Lemma flag_bit : forall ctrl k, flag_on ctrl (2 ^ k) = N.testbit ctrl k.
Proof.
  intros ctrl k. unfold flag_on, ctrl_and. destruct (N.testbit ctrl k) eqn:E.
  - destruct (N.eqb_spec (N.land ctrl (2 ^ k)) 0) as [Z|Z]; [|reflexivity]. exfalso. pose proof (N.land_spec ctrl (2 ^ k) k) as H. rewrite Z, E, N.pow2_bits_true in H. rewrite N.bits_0 in H. discriminate H.
  - assert (Z : N.land ctrl (2 ^ k) = 0%N).
    { apply N.bits_inj_0. intro j. rewrite N.land_spec, N.pow2_bits_eqb. destruct (N.eqb_spec k j) as [<-|_]; [rewrite E; reflexivity|apply andb_false_r]. }
    rewrite Z. reflexivity.
Qed.
Section Entity.
Variables (ctrl : N) (i : nat).
Let F := flags_of ctrl.
Lemma b_cells : flag_on ctrl RenderCells = f_cells F. Proof. exact (flag_bit ctrl 0). Qed.
Lemma b_cell_numbers : flag_on ctrl CellNumbering = f_cell_numbers F. Proof. exact (flag_bit ctrl 1). Qed.
Lemma b_corner_numbers : flag_on ctrl VerticeNumbering = f_corner_numbers F. Proof. exact (flag_bit ctrl 2). Qed.
Lemma b_node_numbers : flag_on ctrl NodeNumbering = f_node_numbers F. Proof. exact (flag_bit ctrl 3). Qed.
Lemma b_edge_numbers : flag_on ctrl EdgeNumbering = f_edge_numbers F. Proof. exact (flag_bit ctrl 4). Qed.
Lemma b_arrows : flag_on ctrl ArrowTips = f_arrows F. Proof. exact (flag_bit ctrl 5). Qed.
Lemma b_document : flag_on ctrl WithPreamble = f_document F. Proof. exact (flag_bit ctrl 6). Qed.

Lemma point_shown : forall v, length v = 1 -> shown (tikz_point ctrl i v) (drawing_of F kPoint i v).
Proof.
  intros v Hv. destruct v as [|p [|]]; try discriminate Hv. unfold tikz_point, drawing_of. rewrite b_node_numbers. cbn [map]. destruct (f_node_numbers F).
  - coord 0. eapply (shown_line (str "red, fill = white") [pt sx sy x y; lab (str "draw, circle, fill = white") (show i)]); [repeat constructor|els|reflexivity| |text].
    split; [reflexivity|]. split; [assumption|apply show_same].
  - coord 0. eapply (shown_line (str "red") [pt sx sy x y; lab [] (str "*")]); [repeat constructor|els|reflexivity| |text].
    split; [reflexivity|]. split; [assumption|reflexivity].
Qed.
Lemma segment_shown : forall v, length v = 2 -> shown (tikz_segment ctrl i v) (drawing_of F kSegment i v).
Proof.
  intros v Hv. destruct v as [|p [|q [|]]]; try discriminate Hv. unfold tikz_segment, drawing_of. rewrite b_node_numbers, b_edge_numbers, b_arrows. cbn [map].
  pose proof (center_eq [p; q]) as Ec. set (c := center_of [p; q]) in *. set (c' := centre [p; q]) in *. clearbody c c'.
  destruct (f_arrows F), (f_node_numbers F), (f_edge_numbers F); cbn [andb negb]; coord 0; coord 1.
  all: try (eapply (shown_line (str "->") [pt sx sy x y; ln; lab (str "black") (show i); pt sx0 sy0 x0 y0]); [repeat constructor|els|reflexivity| |text]).
  all: try (eapply (shown_line (str "->") [pt sx sy x y; ln; pt sx0 sy0 x0 y0]); [repeat constructor|els|reflexivity| |text]).
  all: try (eapply (shown_line (str "") [pt sx sy x y; ln; lab (str "black") (show i); pt sx0 sy0 x0 y0]); [repeat constructor|els|reflexivity| |text]).
  all: try (eapply (shown_line (str "") [pt sx sy x y; ln; pt sx0 sy0 x0 y0]); [repeat constructor|els|reflexivity| |text]).
  all: cbn [same_figure same_option fst snd nth] in *; split; [reflexivity|].
  all: split; [eapply same_eq; [|eassumption]; first [apply mix_towards; [reflexivity|reflexivity|exact Ec]|apply towards_0]|].
  all: split; [eapply same_eq; [|eassumption]; first [apply mix_towards; [reflexivity|reflexivity|exact Ec]|apply towards_0]|].
  all: first [exact I|apply show_same].
Qed.
Lemma tria_shown : forall v, length v = 3 -> shown (tikz_tria ctrl i v) (drawing_of F kTria i v).
Proof.
  intros v Hv. destruct v as [|p0 [|p1 [|p2 [|]]]]; try discriminate Hv. unfold tikz_tria, drawing_of. rewrite b_cells, b_cell_numbers, b_corner_numbers.
  pose proof (center_eq [p0; p1; p2]) as Ec. set (c := center_of [p0; p1; p2]) in *. set (c' := centre [p0; p1; p2]) in *. clearbody c c'.
  destruct (f_cells F); [|apply shown_nil].
  match goal with |- shown (?a ++ ?b) (?f :: ?l) => change (f :: l) with ([f] ++ l); apply (shown_app a b [f] l) end.
  - cbn [map indexed combine seq length fst snd]. destruct (f_corner_numbers F); coord 0; coord 1; coord 2.
    + eapply (shown_line (str "green") [pt sx sy x y; lab [] (str "0"); ln; pt sx0 sy0 x0 y0; lab [] (str "1"); ln; pt sx1 sy1 x1 y1; lab [] (str "2"); ln; cy]); [repeat constructor|els|reflexivity| |text].
      cbn [nth] in *. repeat (first [apply Forall2_nil|apply Forall2_cons]); cbn [fst snd same_option same_text]; (split; [eapply same_eq; [|eassumption]; apply mix_towards; [reflexivity|reflexivity|exact Ec]|reflexivity]).
    + eapply (shown_line (str "green") [pt sx sy x y; ln; pt sx0 sy0 x0 y0; ln; pt sx1 sy1 x1 y1; ln; cy]); [repeat constructor|els|reflexivity| |text].
      cbn [nth] in *. repeat (first [apply Forall2_nil|apply Forall2_cons]); cbn [fst snd same_option same_text]; (split; [eapply same_eq; [|eassumption]; apply mix_towards; [reflexivity|reflexivity|exact Ec]|exact I]).
  - destruct (f_cell_numbers F); [|apply shown_nil]. coord 0. eapply (shown_line (str "green") [pt sx sy x y; lab [] (show i)]); [repeat constructor|els|reflexivity| |text].
    split; [reflexivity|]. split; [|apply show_same]. eapply same_eq; [exact Ec|assumption].
Qed.
Lemma quad_shown : forall v, length v = 4 -> shown (tikz_quad ctrl i v) (drawing_of F kQuad i v).
Proof.
  intros v Hv. destruct v as [|p0 [|p1 [|p2 [|p3 [|]]]]]; try discriminate Hv. unfold tikz_quad, drawing_of. rewrite b_cells, b_cell_numbers, b_corner_numbers.
  pose proof (center_eq [p0; p1; p2; p3]) as Ec. set (c := center_of [p0; p1; p2; p3]) in *. set (c' := centre [p0; p1; p2; p3]) in *. clearbody c c'.
  destruct (f_cells F); [|apply shown_nil].
  match goal with |- shown (?a ++ ?b) (?f :: ?l) => change (f :: l) with ([f] ++ l); apply (shown_app a b [f] l) end.
  - cbn [map indexed combine seq length fst snd]. destruct (f_corner_numbers F); coord 0; coord 1; coord 2; coord 3.
    + eapply (shown_line (str "magenta") [pt sx sy x y; lab [] (str "0"); ln; pt sx0 sy0 x0 y0; lab [] (str "1"); ln; pt sx1 sy1 x1 y1; lab [] (str "2"); ln; pt sx2 sy2 x2 y2; lab [] (str "3"); ln; cy]); [repeat constructor|els|reflexivity| |text].
      cbn [nth] in *. repeat (first [apply Forall2_nil|apply Forall2_cons]); cbn [fst snd same_option same_text]; (split; [eapply same_eq; [|eassumption]; apply mix_towards; [reflexivity|reflexivity|exact Ec]|reflexivity]).
    + eapply (shown_line (str "magenta") [pt sx sy x y; ln; pt sx0 sy0 x0 y0; ln; pt sx1 sy1 x1 y1; ln; pt sx2 sy2 x2 y2; ln; cy]); [repeat constructor|els|reflexivity| |text].
      cbn [nth] in *. repeat (first [apply Forall2_nil|apply Forall2_cons]); cbn [fst snd same_option same_text]; (split; [eapply same_eq; [|eassumption]; apply mix_towards; [reflexivity|reflexivity|exact Ec]|exact I]).
  - destruct (f_cell_numbers F); [|apply shown_nil]. coord 0. eapply (shown_line (str "magenta") [pt sx sy x y; lab [] (show i)]); [repeat constructor|els|reflexivity| |text].
    split; [reflexivity|]. split; [|apply show_same]. eapply same_eq; [exact Ec|assumption].
Qed.
Lemma entity_shown : forall t v, length v = match t with kPoint => 1 | kSegment => 2 | kTria => 3 | kQuad => 4 end ->
  shown (tikz_entity ctrl t i v) (drawing_of F t i v).
Proof. intros t v Hv. destruct t; [apply point_shown|apply segment_shown|apply tria_shown|apply quad_shown]; exact Hv. Qed.
End Entity.

Lemma concat_if : forall A B (f : A -> list B) sel l, flat_map f (filter sel l) = flat_map (fun x => if sel x then f x else []) l.
Proof. intros A B f sel l. induction l as [|x l IH]; [reflexivity|]. cbn [filter flat_map]. destruct (sel x); cbn [flat_map app]; rewrite IH; reflexivity. Qed.
Theorem tikz_shows : forall m corners sel ctrl, proper_corners m corners -> exists text,
  writeTikZ true m corners sel ctrl = (true, text) /\ shows (f_document (flags_of ctrl)) text (drawing (flags_of ctrl) m corners sel).
Proof.
  intros m corners sel ctrl H. unfold writeTikZ. cbn [negb]. eexists. split; [reflexivity|]. rewrite <- (b_document ctrl). apply file_shows.
  unfold drawing. rewrite concat_if, !flat_map_app. cbn [seq map concat]. rewrite app_nil_r.
  assert (G : forall codim, codim <= 2 -> shown (concat (map (fun obj => if sel obj then tikz_entity ctrl (ent_type m obj) (ent_index obj) (corners obj) else []) (AssembleModel.entities m codim)))
    (flat_map (fun e => if sel e then drawing_of (flags_of ctrl) (ent_type m e) (ent_index e) (corners e) else []) (AssembleModel.entities m codim))).
  { intros codim Hc. apply shown_concat. intros e He. destruct (sel e); [|apply shown_nil]. apply entity_shown. exact (H codim e Hc He). }
  apply shown_app; [apply G; lia|]. apply shown_app; apply G; lia.
Qed.
Theorem tikz_closed : forall m corners sel ctrl, fst (writeTikZ false m corners sel ctrl) = false.
Proof. reflexivity. Qed.
Theorem tikz_or : forall a b k, N.testbit (ctrl_or a b) k = N.testbit a k || N.testbit b k.
Proof. exact N.lor_spec. Qed.
Theorem tikz_and : forall a b k, N.testbit (ctrl_and a b) k = N.testbit a k && N.testbit b k.
Proof. exact N.land_spec. Qed.
(** Without RenderCells the numbers of cells and corners do not matter. *)
Theorem tikz_no_cells : forall o m corners sel ctrl ctrl', f_cells (flags_of ctrl) = false -> f_cells (flags_of ctrl') = false ->
  (forall k, k <> 1%N -> k <> 2%N -> N.testbit ctrl k = N.testbit ctrl' k) -> writeTikZ o m corners sel ctrl = writeTikZ o m corners sel ctrl'.
Proof.
  intros o m corners sel ctrl ctrl' C C' B. unfold writeTikZ.
  assert (Bn : flag_on ctrl NodeNumbering = flag_on ctrl' NodeNumbering) by (rewrite !b_node_numbers; apply B; discriminate).
  assert (Be : flag_on ctrl EdgeNumbering = flag_on ctrl' EdgeNumbering) by (rewrite !b_edge_numbers; apply B; discriminate).
  assert (Ba : flag_on ctrl ArrowTips = flag_on ctrl' ArrowTips) by (rewrite !b_arrows; apply B; discriminate).
  assert (Bp : flag_on ctrl WithPreamble = flag_on ctrl' WithPreamble) by (rewrite !b_document; apply B; discriminate).
  rewrite <- b_cells in C, C'.
  assert (Ent : forall t i v, tikz_entity ctrl t i v = tikz_entity ctrl' t i v).
  { intros t i v. destruct t; cbn [tikz_entity]; unfold tikz_point, tikz_segment, tikz_tria, tikz_quad; rewrite ?Bn, ?Be, ?Ba, ?C, ?C'; reflexivity. }
  unfold tikz_head. rewrite Bp. destruct o; [|reflexivity]. cbn [negb]. do 3 f_equal. f_equal. apply map_ext. intros cd. f_equal. apply map_ext. intros e. rewrite Ent. reflexivity.
Qed.

(** *** Example *)
Definition one_cell : mesh := mkMeshV 3 [(0, 1); (1, 2); (2, 0)] [mkCellv [0; 1; 2] [0; 1; 2] [true; true; true]].
Definition one_corners (e : ent) : list point :=
  let P := [(0, 0); (1, 0); (1 # 2, 3 # 4)]%Q in
  match e with ENode i => [nth i P (0, 0)%Q] | EEdge i => [nth i P (0, 0)%Q; nth ((i + 1) mod 3) P (0, 0)%Q] | ECell _ => P end.
Lemma one_corners_proper : proper_corners one_cell one_corners.
Proof.
  intros cd e Hc He. destruct cd as [|[|[|cd]]]; [| | |lia]; cbn in He; repeat (destruct He as [<-|He]; [reflexivity|]); destruct He.
Qed.
Theorem default_refuted : exists m corners, proper_corners m corners /\ writeTikZ_all true m corners default_ctrl <> writeTikZ_all true m corners 7 /\
  ~ In (Number 0) (flat_map (fun f => match f with Text _ _ t => [t] | _ => [] end) (drawing (flags_of default_ctrl) m corners (fun _ => true))) /\
  In (Number 0) (flat_map (fun f => match f with Text _ _ t => [t] | _ => [] end) (drawing (flags_of 7) m corners (fun _ => true))).
Proof.
  exists one_cell, one_corners. split; [exact one_corners_proper|]. split; [vm_compute; discriminate|]. split; [vm_compute; intuition discriminate|vm_compute; left; reflexivity].
Qed.
