(** Files written by writeMatplotlib are read by plot_mesh.py. *)
From Coq Require Import String Ascii List Arith NArith ZArith QArith Qabs Bool Lia.
Import ListNotations.
From Verif Require Import Base MeshView MshModel MshSpec MshProofs RefineModel WriteModel WriteSpec WriteProofs WriteProofs2 WriteProofs3 WriteProofs4 WriteProofs5.
Local Open Scope list_scope.
Local Open Scope nat_scope.

(** *** Lines *)
Definition solid (s : chars) : Prop := Forall (fun c => is_space c = false) s.
Lemma solid_app : forall a b, solid a -> solid b -> solid (a ++ b).
Proof. intros. apply Forall_app. split; assumption. Qed.
Lemma lines_cut : forall l cur rest, solid l -> lines_ cur (l ++ newline ++ rest) = (rev cur ++ l) :: lines_ [] rest.
Proof.
  induction l as [|c l IH]; intros cur rest H.
  - cbn. rewrite app_nil_r. reflexivity.
  - inversion H as [|c' l' Hc Hl]; subst. cbn [app lines_]. destruct (Ascii.eqb_spec c "010") as [->|_]; [discriminate Hc|].
    rewrite IH by exact Hl. cbn [rev]. rewrite <- app_assoc. reflexivity.
Qed.
Lemma lines_concat : forall ls, Forall solid ls -> lines (concat (map (fun l => l ++ newline) ls)) = ls.
Proof.
  intros ls H. unfold lines. induction H as [|l ls Hl H IH]; [reflexivity|]. cbn [map concat]. rewrite <- app_assoc, (lines_cut l [] _ Hl). cbn [rev app]. rewrite IH. reflexivity.
Qed.
Lemma until_solid : forall s, solid s -> until_space s = s.
Proof. intros s H. induction H as [|c s Hc H IH]; [reflexivity|]. cbn [until_space]. rewrite Hc, IH. reflexivity. Qed.
Lemma first_word_solid : forall s, solid s -> s <> [] -> first_word s = Some s.
Proof.
  intros s H Hne. unfold first_word. destruct H as [|c s Hc H]; [congruence|]. cbn [skip]. rewrite Hc. rewrite until_solid; [reflexivity|constructor; assumption].
Qed.
Lemma digits_solid : forall ds s, digits_of ds s -> solid s.
Proof.
  intros ds s [H ->]. apply Forall_map. eapply Forall_impl; [|exact H]. intros d Hd. apply digit_not_space. exact Hd.
Qed.
Lemma sign_solid : forall g s, sign_of g s -> solid s.
Proof. intros g s [[_ [->| ->]]|[_ ->]]; repeat constructor. Qed.
Lemma real_solid : forall d s, real d s -> solid s.
Proof.
  intros d s (g & ip & fp & s1 & s2 & s3 & s4 & k & -> & Hg & Hip & _ & H3 & H4 & _).
  apply solid_app; [eapply sign_solid; exact Hg|]. apply solid_app; [eapply digits_solid; exact Hip|]. apply solid_app.
  - destruct H3 as [[_ ->]|(t & -> & Ht)]; [constructor|]. apply solid_app; [repeat constructor|eapply digits_solid; exact Ht].
  - destruct H4 as [[_ ->]|(e & h & ep & t1 & t2 & He & -> & Hh & _ & Hd & _)]; [constructor|]. constructor; [destruct He as [->| ->]; reflexivity|].
    apply solid_app; [eapply sign_solid; exact Hh|eapply digits_solid; exact Hd].
Qed.
Lemma real_nonempty : forall d s, real d s -> s <> [].
Proof.
  intros d s H E. subst s. pose proof (real_reads d [] [] H) as K. cbn [app] in K. unfold double_ in K. cbn in K. specialize (K ltac:(repeat split)). discriminate K.
Qed.

(** *** Rows of numbers *)
Definition row_text (tail : chars) (l : list decimal) (t : chars) : Prop :=
  exists d s items, l = d :: map snd items /\ real d s /\ Forall (fun x => real (snd x) (fst x)) items /\
    t = s ++ concat (map (fun x => str "," ++ fst x) items) ++ tail.
Lemma row_solid : forall tail l t, row_text tail l t -> tail = [] \/ tail = str "," -> solid t /\ t <> [].
Proof.
  intros tail l t (d & s & items & _ & Hd & Hi & ->) Ht. split.
  - apply solid_app; [eapply real_solid; exact Hd|]. apply solid_app; [|destruct Ht as [->| ->]; repeat constructor].
    induction Hi as [|x items Hx Hi IH]; [constructor|]. cbn [map concat]. apply solid_app; [|exact IH]. apply solid_app; [repeat constructor|eapply real_solid; exact Hx].
  - intro E. apply app_eq_nil in E. destruct E as [E _]. exact (real_nonempty d s Hd E).
Qed.
Lemma row_array : forall tail l t, row_text tail l t -> tail = [] \/ tail = str "," -> array t = Some l.
Proof.
  intros tail l t (d & s & items & -> & Hd & Hi & ->) Ht. unfold array.
  assert (St : forall q, stops (str "," ++ q)) by (intro q; split; [reflexivity|split; [split; reflexivity|reflexivity]]).
  assert (E : array_ (s ++ concat (map (fun x => str "," ++ fst x) items) ++ tail) = Success (d :: map snd items) []).
  { unfold array_. set (its := map (fun x => (str "," ++ fst x, snd x)) items).
    assert (Ec : map (fun x => str "," ++ fst x) items = map fst its) by (unfold its; rewrite map_map; reflexivity).
    assert (Es : map snd items = map snd its) by (unfold its; rewrite map_map; reflexivity). rewrite Ec, Es.
    assert (Tt : stops tail) by (destruct Ht as [->| ->]; [repeat split|split; [reflexivity|split; [split; reflexivity|reflexivity]]]).
    assert (HI : Forall (fun x => (forall r, stops r -> (read _ <- lit false (str ","); double_ false) (fst x ++ r) = Success (snd x) r) /\ fst x <> [] /\ forall r, stops (fst x ++ r)) its).
    { unfold its. apply Forall_map. eapply Forall_impl; [|exact Hi]. intros [u e] Hu. cbn [fst snd] in *. split; [|split].
      - intros r Hr. next. apply real_reads; assumption.
      - discriminate.
      - intro r. rewrite <- app_assoc. apply St. }
    rewrite (step _ _ _ _ _ d (concat (map fst its) ++ tail)).
    - rewrite (step _ _ _ _ _ (map snd its) tail).
      + destruct Ht as [->| ->]; reflexivity.
      + apply (star_reads _ _ stops); [exact HI|exact Tt|]. destruct Ht as [->| ->]; reflexivity.
    - apply real_reads; [exact Hd|]. destruct HI as [|x its' (_ & _ & K) _]; [exact Tt|]. cbn [map concat]. rewrite <- app_assoc. apply K. }
  rewrite E. reflexivity.
Qed.
Lemma commas : forall sub, str "," ++ concat (map (fun s => show s ++ str ",") sub) = concat (map (fun s => str "," ++ show s) sub) ++ str ",".
Proof. induction sub as [|k sub IH]; [reflexivity|]. cbn [map concat]. rewrite <- !app_assoc. rewrite IH. reflexivity. Qed.
Lemma ints_text : forall a i sub, row_text (str ",") (map nat_ (a :: i :: sub)) (show a ++ str "," ++ show i ++ str "," ++ concat (map (fun s => show s ++ str ",") sub)).
Proof.
  intros a i sub. exists (nat_ a), (show a), (map (fun k => (show k, nat_ k)) (i :: sub)).
  split; [rewrite map_map; reflexivity|]. split; [apply show_real|]. split.
  - apply Forall_map. apply Forall_forall. intros k _. apply show_real.
  - f_equal. rewrite map_map. cbn [fst map concat]. rewrite <- !app_assoc. f_equal. f_equal. apply commas.
Qed.
Lemma node_text : forall a i dx dy sx sy, real dx sx -> real dy sy -> row_text [] [nat_ a; nat_ i; dx; dy] (show a ++ str "," ++ show i ++ str "," ++ sx ++ str "," ++ sy).
Proof.
  intros a i dx dy sx sy Hx Hy. exists (nat_ a), (show a), [(show i, nat_ i); (sx, dx); (sy, dy)].
  split; [reflexivity|]. split; [apply show_real|]. split; [repeat constructor; cbn [fst snd]; try assumption; apply show_real|].
  cbn [map fst concat]. rewrite <- !app_assoc. rewrite !app_nil_r. reflexivity.
Qed.

(** *** The reader *)
Definition rows_file (rows : matrix) (s : chars) : Prop := exists ls, s = concat (map (fun l => l ++ newline) ls) /\ Forall solid ls /\
  Forall2 (fun l r => first_word l = Some l /\ array l = Some r) ls rows.
Lemma rows_file_nil : rows_file [] [].
Proof. exists []. split; [reflexivity|]. split; constructor. Qed.
Lemma rows_file_cons : forall tail r t rows s, row_text tail r t -> tail = [] \/ tail = str "," -> rows_file rows s -> rows_file (r :: rows) (t ++ newline ++ s).
Proof.
  intros tail r t rows s Hr Ht (ls & -> & Hs & H2). destruct (row_solid _ _ _ Hr Ht) as [S1 S2].
  exists (t :: ls). split; [cbn [map concat]; rewrite <- app_assoc; reflexivity|]. split; [constructor; assumption|]. constructor; [|exact H2].
  split; [apply first_word_solid; assumption|]. eapply row_array; eassumption.
Qed.
Lemma rows_file_app : forall a b s t, rows_file a s -> rows_file b t -> rows_file (a ++ b) (s ++ t).
Proof.
  intros a b s t (l1 & -> & S1 & F1) (l2 & -> & S2 & F2). exists (l1 ++ l2). split; [rewrite map_app, concat_app; reflexivity|].
  split; [apply solid_app || (apply Forall_app; split; assumption); assumption|]. apply Forall2_app; assumption.
Qed.
(** One pass of the loop, for the row of numbers. *)
Definition add_row (p : plot) (a : list decimal) : option plot :=
  match a with
  | h :: t =>
    if Qeq_bool (number_of h) 0 then
      if length a =? 5 then Some (mkPlot (vertices p) (segments p) (triangles p ++ [a]) (quads p))
      else if length a =? 6 then Some (mkPlot (vertices p) (segments p) (triangles p) (quads p ++ [a]))
      else None
    else if Qeq_bool (number_of h) 1 then Some (mkPlot (vertices p) (segments p ++ [a]) (triangles p) (quads p))
    else if Qeq_bool (number_of h) 2 then Some (mkPlot (vertices p ++ [a]) (segments p) (triangles p) (quads p))
    else Some p
  | [] => None
  end.
Fixpoint add_rows (p : plot) (l : matrix) : option plot := match l with [] => Some p | a :: r => match add_row p a with Some p' => add_rows p' r | None => None end end.
Lemma add_rows_app : forall a b p q, add_rows p a = Some q -> add_rows p (a ++ b) = add_rows q b.
Proof. induction a as [|x a IH]; intros b p q H; cbn [add_rows app] in *; [congruence|]. destruct (add_row p x) as [p'|]; [|discriminate H]. apply IH. exact H. Qed.
Lemma rows_plot : forall rows s, rows_file rows s -> plot_mesh s = add_rows (mkPlot [] [] [] []) rows.
Proof.
  intros rows s (ls & -> & Hs & H). unfold plot_mesh. rewrite (lines_concat ls Hs). generalize (mkPlot [] [] [] []). clear Hs.
  induction H as [|l r ls rows [W A] H IH]; intro p; [reflexivity|]. cbn [add_lines add_rows]. unfold add_line. rewrite W, A.
  destruct r as [|h t]; [reflexivity|]. unfold add_row. repeat match goal with |- context [if ?b then _ else _] => destruct b end; try reflexivity; apply IH.
Qed.
(** Cells, edges, nodes *)
Definition csv_cell (x : nat * cellv) : list decimal := map nat_ (0 :: fst x :: cv_edges (snd x)).
Lemma csv_cells_file : forall cs i, Forall good_cell cs -> exists s, csv_cells i cs = Ok s /\ rows_file (map csv_cell (from i cs)) s.
Proof.
  intros cs. induction cs as [|c cs IH]; intros i H.
  - exists []. split; [reflexivity|apply rows_file_nil].
  - inversion H as [|c' cs' [Hc He] Hcs]; subst c' cs'. destruct (IH (i + 1) Hcs) as (s & E & Hf). cbn [csv_cells].
    exists (csv_row 0 i (cv_edges c) ++ s). split.
    + rewrite E. destruct Hc as [Hc|Hc]; rewrite Hc; reflexivity.
    + unfold from. cbn [length seq combine map]. fold (@from cellv (S i) cs). replace (S i) with (i + 1) by lia.
      unfold csv_row. replace ((show 0 ++ str "," ++ show i ++ str "," ++ concat (map (fun s => show s ++ str ",") (cv_edges c)) ++ newline) ++ s)
        with ((show 0 ++ str "," ++ show i ++ str "," ++ concat (map (fun s => show s ++ str ",") (cv_edges c))) ++ newline ++ s) by (rewrite <- !app_assoc; reflexivity).
      apply (rows_file_cons (str ",")); [apply ints_text|right; reflexivity|exact Hf].
Qed.
Definition csv_edge (x : nat * (nat * nat)) : list decimal := map nat_ [1; fst x; fst (snd x); snd (snd x)].
Lemma csv_edges_file : forall es i, rows_file (map csv_edge (from i es)) (csv_edges i es).
Proof.
  induction es as [|[p0 p1] es IH]; intro i; [apply rows_file_nil|]. unfold from. cbn [length seq combine map csv_edges]. fold (@from (nat * nat) (S i) es). specialize (IH (i + 1)). replace (i + 1) with (S i) in * by lia.
  unfold csv_row. replace ((show 1 ++ str "," ++ show i ++ str "," ++ concat (map (fun s => show s ++ str ",") [p0; p1]) ++ newline) ++ csv_edges (S i) es)
    with ((show 1 ++ str "," ++ show i ++ str "," ++ concat (map (fun s => show s ++ str ",") [p0; p1])) ++ newline ++ csv_edges (S i) es) by (rewrite <- !app_assoc; reflexivity).
  apply (rows_file_cons (str ",")); [apply ints_text|right; reflexivity|exact IH].
Qed.
Definition csv_vertex (x : nat * (decimal * decimal)) : list decimal := [nat_ 2; nat_ (fst x); fst (snd x); snd (snd x)].
Lemma csv_nodes_file : forall xy n k, exists ds, length ds = n /\ approximates ds xy k /\ rows_file (map csv_vertex (from k ds)) (concat (map (csv_node xy) (seq k n))).
Proof.
  intros xy n. induction n as [|n IH]; intro k.
  - exists []. split; [reflexivity|]. split; [intros [|i] d Hd; discriminate Hd|apply rows_file_nil].
  - destruct (IH (S k)) as (ds & Hl & Ha & Hb). destruct (show_g_spec (fst (xy k))) as (dx & Rx & Cx & _). destruct (show_g_spec (snd (xy k))) as (dy & Ry & Cy & _).
    exists ((dx, dy) :: ds). split; [cbn [length]; lia|]. split.
    + intros [|i] d Hd; cbn [nth_error] in Hd.
      * injection Hd as <-. rewrite Nat.add_0_r. split; assumption.
      * replace (k + S i) with (S k + i) by lia. apply Ha. exact Hd.
    + cbn [seq map concat]. unfold from. cbn [length seq combine map]. fold (@from (decimal * decimal) (S k) ds).
      replace (csv_node xy k ++ concat (map (csv_node xy) (seq (S k) n))) with ((show 2 ++ str "," ++ show k ++ str "," ++ show_g (fst (xy k)) ++ str "," ++ show_g (snd (xy k))) ++ newline ++ concat (map (csv_node xy) (seq (S k) n))) by (unfold csv_node; rewrite <- !app_assoc; reflexivity).
      apply (rows_file_cons []); [apply node_text; assumption|left; reflexivity|exact Hb].
Qed.
Lemma zero_test : Qeq_bool (number_of (nat_ 0)) 0 = true. Proof. reflexivity. Qed.
Lemma filter_corners : forall n i c l, filter (corners n) ((i, c) :: l) = if length (cv_nodes c) =? n then (i, c) :: filter (corners n) l else filter (corners n) l.
Proof. reflexivity. Qed.
Lemma plot_cells : forall l p, Forall good_cell (map snd l) -> add_rows p (map csv_cell l) =
  Some (mkPlot (vertices p) (segments p) (triangles p ++ map csv_cell (filter (corners 3) l)) (quads p ++ map csv_cell (filter (corners 4) l))).
Proof.
  induction l as [|[i c] l IH]; intros p H.
  - cbn. rewrite !app_nil_r. destruct p; reflexivity.
  - cbn [map snd] in H. inversion H as [|c' cs' [Hc He] Hcs]; subst c' cs'. cbn [map add_rows].
    assert (Hlen : length (csv_cell (i, c)) = 2 + length (cv_nodes c)). { unfold csv_cell. rewrite map_length. cbn [length fst snd]. rewrite He. reflexivity. }
    change (csv_cell (i, c)) with (nat_ 0 :: map nat_ (i :: cv_edges c)) in *. unfold add_row at 1. rewrite zero_test. rewrite Hlen.
    destruct Hc as [Hc|Hc]; rewrite Hc; cbn [Nat.add Nat.eqb]; rewrite (IH _ Hcs); cbn [vertices segments triangles quads]; rewrite !filter_corners, Hc; cbn [Nat.eqb map]; rewrite <- app_assoc; reflexivity.
Qed.
Lemma plot_edges : forall l p, add_rows p (map csv_edge l) = Some (mkPlot (vertices p) (segments p ++ map csv_edge l) (triangles p) (quads p)).
Proof.
  induction l as [|x l IH]; intro p; [cbn; rewrite app_nil_r; destruct p; reflexivity|]. cbn [map add_rows].
  change (add_row p (csv_edge x)) with (Some (mkPlot (vertices p) (segments p ++ [csv_edge x]) (triangles p) (quads p))). cbv iota. rewrite IH. cbn [vertices segments triangles quads]. rewrite <- app_assoc. reflexivity.
Qed.
Lemma plot_nodes : forall l p, add_rows p (map csv_vertex l) = Some (mkPlot (vertices p ++ map csv_vertex l) (segments p) (triangles p) (quads p)).
Proof.
  induction l as [|x l IH]; intro p; [cbn; rewrite app_nil_r; destruct p; reflexivity|]. cbn [map add_rows].
  change (add_row p (csv_vertex x)) with (Some (mkPlot (vertices p ++ [csv_vertex x]) (segments p) (triangles p) (quads p))). cbv iota. rewrite IH. cbn [vertices segments triangles quads]. rewrite <- app_assoc. reflexivity.
Qed.
Lemma from_nth : forall A (l : list A) k i x, nth_error l i = Some x -> nth_error (from k l) i = Some (k + i, x).
Proof.
  intros A l. induction l as [|y l IH]; intros k [|i] x H; try discriminate H; unfold from; cbn [length seq combine nth_error] in *.
  - injection H as <-. rewrite Nat.add_0_r. reflexivity.
  - fold (@from A (S k) l). rewrite (IH (S k) i x H). f_equal. f_equal. lia.
Qed.
Lemma writeMatplotlib_plots : forall m xy filename, 4 <= length filename -> Forall good_cell (mv_cells m) ->
  exists text p, writeMatplotlib m xy filename = Ok (csv_name filename, text) /\ plot_mesh text = Some p /\ plotted m xy p.
Proof.
  intros m xy filename Hn Hc. destruct (csv_cells_file (mv_cells m) 0 Hc) as (sc & Ec & Fc). destruct (csv_nodes_file xy (mv_nodes m) 0) as (ds & Hl & Ha & Fn).
  unfold writeMatplotlib, matplotlib_file. apply Nat.leb_le in Hn. rewrite Hn. cbn [verify bind]. rewrite Ec. cbn [bind].
  pose proof (rows_file_app _ _ _ _ Fc (rows_file_app _ _ _ _ (csv_edges_file (mv_edges m) 0) Fn)) as F. apply rows_plot in F.
  eexists. eexists. split; [reflexivity|]. split.
  - rewrite F. rewrite (add_rows_app _ _ _ _ (plot_cells (from 0 (mv_cells m)) _ ltac:(rewrite from_snd; exact Hc))). rewrite (add_rows_app _ _ _ _ (plot_edges (from 0 (mv_edges m)) _)). apply plot_nodes.
  - unfold plotted. cbn [vertices segments triangles quads app]. split; [reflexivity|]. split; [reflexivity|]. split; [reflexivity|]. split.
    + rewrite map_length. unfold from. rewrite combine_length, seq_length, Hl. lia.
    + intros i Hi. destruct (nth_error ds i) as [[dx dy]|] eqn:E; [|apply nth_error_None in E; lia]. exists dx, dy. destruct (Ha i _ E) as [A1 A2].
      split; [rewrite nth_error_map, (from_nth _ ds 0 i (dx, dy) E); reflexivity|]. split; assumption.
Qed.
