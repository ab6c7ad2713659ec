(** writeMatlab, WriteMatlabLevel, WriteMatlab. *)
From Coq Require Import String Ascii List Arith NArith ZArith QArith Qabs Bool Lia.
Import ListNotations.
From Verif Require Import Base MeshView MshModel MshSpec MshProofs RefineModel WriteModel WriteSpec WriteProofs WriteProofs2 WriteProofs3 WriteProofs4.
Local Open Scope list_scope.
Local Open Scope nat_scope.

Lemma column_map : forall (ds : list (decimal * decimal)) n xy (p : decimal * decimal -> decimal) (g : Q * Q -> Q), length ds = n ->
  (forall i d, nth_error ds i = Some d -> six_digits (p d) (g (xy i))) -> column (map (fun d => [p d]) ds) n (fun i => g (xy i)).
Proof.
  intros ds n xy p g Hl H. split; [rewrite map_length; exact Hl|]. intros i Hi. destruct (nth_error ds i) as [d|] eqn:E.
  - exists (p d). split; [rewrite nth_error_map, E; reflexivity|]. apply H. exact E.
  - apply nth_error_None in E. lia.
Qed.
Lemma edges_table_rows : forall es i, map (fun x : nat * (nat * nat) => map nat_ [fst (snd x) + 1; snd (snd x) + 1]) (from i es) = map edge_row es.
Proof. induction es as [|p es IH]; intro i; [reflexivity|]. unfold from in *. cbn [length seq combine map snd]. rewrite IH. reflexivity. Qed.
Lemma columns_rows : forall es, columns (map edge_row es) 2 = true.
Proof. induction es as [|p es IH]; [reflexivity|]. exact IH. Qed.
Lemma from_snd : forall A (l : list A) i, map snd (from i l) = l.
Proof. intros A l. induction l as [|x l IH]; intro i; [reflexivity|]. unfold from in *. cbn [length seq combine map snd]. rewrite IH. reflexivity. Qed.
Lemma comment_line : forall s : string, forallb (fun c => negb (Ascii.eqb c "010")) (str s) = true -> Forall (fun c => negb (Ascii.eqb c "010") = true) (str s).
Proof. intros s H. apply forallb_forall in H || idtac. apply Forall_forall. rewrite forallb_forall in H. exact H. Qed.
Lemma writeMatlab_runs : forall m xy filename f, Forall tri_or_quad (mv_cells m) -> matlab_name filename f ->
  exists text x y, writeMatlab m xy filename = Ok (f ++ str ".m", text) /\
    run text = Some (f, [x; y; cell_table m 3 (fun i c => map (fun n => n + 1) (cv_nodes c) ++ [i]); cell_table m 4 (fun i c => map (fun n => n + 1) (cv_nodes c) ++ [i]);
                         edge_table m (fun _ p => [fst p + 1; snd p + 1])]) /\
    column x (mv_nodes m) (fun i => fst (xy i)) /\ column y (mv_nodes m) (fun i => snd (xy i)).
Proof.
  intros m xy filename f Hm Hn. destruct (file_name filename f Hn) as [En Ef]. pose proof Hn as [Hf _].
  set (N := mv_nodes m). set (ne := length (mv_edges m)).
  destruct (nodes_body xy N 0) as (ds & Hl & Ha & Hb). destruct (cells_body (mv_cells m) 0 0 0 Hm) as (sc & Ec & Hc).
  unfold writeMatlab. rewrite En, Ef. cbn [bind]. rewrite Ec. cbn [bind].
  eexists. exists (map (fun d => [fst d]) ds), (map (fun d => [snd d]) ds). split; [reflexivity|]. split.
  2:{ split; apply column_map; try exact Hl; intros i d Hd; destruct (Ha i d Hd); assumption. }
  fold N ne.
  set (Z1 := Zeros X_ (N.of_nat N) (N.of_nat 1)). set (Z2 := Zeros Y_ (N.of_nat N) (N.of_nat 1)). set (Z3 := Zeros EDS_ (N.of_nat ne) (N.of_nat 2)).
  pose (l := [Z1] ++ [Z2] ++ nodes_st 0 ds ++ [Z3] ++ rows_st EDS_ 0 (map edge_row (mv_edges m)) ++ ([Empty TRI_] ++ [Empty QUAD_]) ++ cells_st 0 0 (from 0 (mv_cells m))).
  (* execution *)
  set (e0 := (fun _ => None) : variables).
  set (e1 := assign e0 X_ (repeat [int 0] N)). set (e2 := assign e1 Y_ (repeat [int 0] N)).
  destruct (nodes_run ds e2 [] [] (repeat [int 0] N) (repeat [int 0] N)) as (e3 & R3 & X3 & Y3 & O3).
  { unfold e2, e1. rewrite assign_other, assign_same by discriminate. reflexivity. }
  { unfold e2. rewrite assign_same. reflexivity. }
  { reflexivity. } { rewrite repeat_length. symmetry. exact Hl. } { rewrite repeat_length. symmetry. exact Hl. }
  { apply columns_repeat. reflexivity. } { apply columns_repeat. reflexivity. }
  set (e4 := assign e3 EDS_ (repeat [int 0; int 0] ne)).
  destruct (replace_rows EDS_ 2 (map edge_row (mv_edges m)) e4 [] (repeat [int 0; int 0] ne)) as (e5 & R5 & D5 & O5).
  { unfold e4. rewrite assign_same. reflexivity. } { rewrite repeat_length, map_length. reflexivity. }
  { apply columns_repeat. reflexivity. } { apply columns_rows. }
  set (e6 := assign e5 TRI_ []). set (e7 := assign e6 QUAD_ []).
  destruct (cells_run (from 0 (mv_cells m)) e7 [] []) as (e8 & R8 & T8 & Q8 & O8).
  { rewrite from_snd. exact Hm. } { unfold e7, e6. rewrite assign_other, assign_same by discriminate. reflexivity. }
  { unfold e7. rewrite assign_same. reflexivity. } { reflexivity. } { reflexivity. }
  assert (EX : execute_all e0 l = Some e8).
  { unfold l. cbn [app execute_all]. unfold Z1, Z2. cbn [execute]. rewrite !Nat2N.id. cbn [repeat]. fold e1. fold e2.
    rewrite (execute_app _ _ _ _ R3). cbn [execute_all]. unfold Z3. cbn [execute]. rewrite !Nat2N.id. cbn [repeat]. fold e4.
    rewrite (execute_app _ _ _ _ R5). cbn [execute_all execute]. fold e6. fold e7. exact R8. }
  assert (OUT : outputs_of e8 [X_; Y_; TRI_; QUAD_; EDS_] = Some [map (fun d => [fst d]) ds; map (fun d => [snd d]) ds; rows_of 3 (from 0 (mv_cells m)); rows_of 4 (from 0 (mv_cells m)); map edge_row (mv_edges m)]).
  { cbn [outputs_of]. rewrite T8, Q8. rewrite (O8 X_), (O8 Y_), (O8 EDS_) by discriminate. unfold e7, e6. rewrite !assign_other by discriminate.
    rewrite D5, (O5 X_), (O5 Y_) by discriminate. unfold e4. rewrite !assign_other by discriminate. rewrite X3, Y3. reflexivity. }
  assert (BODY : body (str "x = zeros(" ++ show N ++ str ",1);" ++ newline ++ str "y = zeros(" ++ show N ++ str ",1);" ++ newline ++ concat (map (matlab_node xy) (seq 0 N)) ++
      str "EDS = zeros(" ++ show ne ++ str ",2);" ++ newline ++ matlab_edges 0 (mv_edges m) ++ str "TRI = []; QUAD = [];" ++ newline ++ sc) l).
  { replace (str "x = zeros(" ++ show N ++ str ",1);" ++ newline ++ str "y = zeros(" ++ show N ++ str ",1);" ++ newline ++ concat (map (matlab_node xy) (seq 0 N)) ++
      str "EDS = zeros(" ++ show ne ++ str ",2);" ++ newline ++ matlab_edges 0 (mv_edges m) ++ str "TRI = []; QUAD = [];" ++ newline ++ sc)
    with (((X_ ++ str " = zeros(" ++ show N ++ str "," ++ show 1 ++ str ");") ++ newline) ++ ((Y_ ++ str " = zeros(" ++ show N ++ str "," ++ show 1 ++ str ");") ++ newline) ++ concat (map (matlab_node xy) (seq 0 N)) ++
      ((EDS_ ++ str " = zeros(" ++ show ne ++ str "," ++ show 2 ++ str ");") ++ newline) ++ matlab_edges 0 (mv_edges m) ++ (((TRI_ ++ str " = [];") ++ str " ") ++ ((QUAD_ ++ str " = [];") ++ newline)) ++ sc) by (rewrite <- !app_assoc; reflexivity).
    unfold l. apply body_app; [apply body_line; [apply stmt_zeros; [ident|left; reflexivity]|exact blank_newline]|].
    apply body_app; [apply body_line; [apply stmt_zeros; [ident|left; reflexivity]|exact blank_newline]|].
    apply body_app; [exact Hb|].
    apply body_app; [apply body_line; [apply stmt_zeros; [ident|right; reflexivity]|exact blank_newline]|].
    apply body_app; [apply edges_body|].
    apply body_app; [|exact Hc]. apply body_app; apply body_line; try (apply stmt_empty; ident); [apply white_blank; reflexivity|exact blank_newline]. }
  unfold edge_table, cell_table, indexed. change (combine (seq 0 (length (mv_edges m))) (mv_edges m)) with (from 0 (mv_edges m)). rewrite edges_table_rows.
  refine (run_body (str "function [x,y,TRI,QUAD,EDS] =" ++ str " ") f [Y_; TRI_; QUAD_; EDS_] X_ (str " Data for an unstructure planar hybrid 2D mesh") _ l e8 _ _ Hf _ BODY EX OUT).
  - intro r. rewrite <- app_assoc. do 6 next. reflexivity.
  - apply comment_line. reflexivity.
Qed.

(** *** Levels of a hierarchy *)
Lemma normalize_signed : forall i z, normalize_idx i = Ok z -> int z = signed i.
Proof. intros [k|] z H; cbn [normalize_idx] in H; [|injection H as <-; reflexivity]. apply bind_ok in H. destruct H as (u & _ & H). injection H as <-. reflexivity. Qed.
Definition row2 (p : parent) : list decimal := [signed (pa_index p); signed (pa_num p)].
Lemma get_ok : forall A (l : list A) k x, get l k = Ok x -> nth_error l k = Some x.
Proof. intros A l k x H. unfold get in H. destruct (nth_error l k); [injection H as ->; reflexivity|discriminate H]. Qed.
Lemma skipn_nth : forall A (l : list A) k x, nth_error l k = Some x -> skipn k l = x :: skipn (S k) l.
Proof. intros A l. induction l as [|y l IH]; intros [|k] x H; try discriminate H; cbn in *; [injection H as ->; reflexivity|]. apply IH. exact H. Qed.
Lemma Ok_inj : forall A (a b : A), Ok a = Ok b -> a = b.
Proof. intros A a b H. injection H as H. exact H. Qed.
Lemma rows_body : forall name infos n k s, identifier name -> level_rows name n k infos = Ok s -> body s (rows_st name k (map row2 (firstn n (skipn k infos)))) /\ k + n <= Nat.max k (length infos).
Proof.
  intros name infos n. induction n as [|n IH]; intros k s Hn H; cbn [level_rows] in H.
  - injection H as <-. split; [constructor; constructor|lia].
  - apply bind_ok in H. destruct H as (p & Ep & H). apply bind_ok in H. destruct H as (i & Ei & H). apply bind_ok in H. destruct H as (c & Ecn & H).
    apply bind_ok in H. destruct H as (s' & Es & H). apply Ok_inj in H. subst s. apply get_ok in Ep. pose proof (proj1 (nth_error_Some infos k)) as Hlt. specialize (Hlt ltac:(congruence)).
    destruct (IH (k + 1) s' Hn Es) as [Hb Hk]. split; [|lia]. rewrite (skipn_nth _ infos k p Ep). cbn [firstn map rows_st]. replace (S k) with (k + 1) by lia.
    change (SetRow name (N.of_nat (k + 1)) (row2 p) :: rows_st name (k + 1) (map row2 (firstn n (skipn (k + 1) infos)))) with ([SetRow name (N.of_nat (k + 1)) (row2 p)] ++ rows_st name (k + 1) (map row2 (firstn n (skipn (k + 1) infos)))).
    replace (name ++ str "(" ++ show (k + 1) ++ str ",:) = [" ++ show_Z i ++ str " , " ++ show_Z c ++ str "];" ++ newline ++ s')
      with (((name ++ str "(" ++ show (k + 1) ++ str ",:) = [" ++ (show_Z i ++ str " , " ++ show_Z c) ++ str "];") ++ newline) ++ s') by (rewrite <- !app_assoc; reflexivity).
    apply body_app; [|exact Hb]. apply body_line; [|exact blank_newline]. apply stmt_row; [exact Hn| |left; reflexivity].
    unfold row2. rewrite <- (normalize_signed _ _ Ei), <- (normalize_signed _ _ Ecn). apply vals_cons; [apply show_Z_real|right; reflexivity|]. apply vals_one, show_Z_real.
Qed.
Definition row3 (x : parent * option nat) : list decimal := [signed (pa_index (fst x)); signed (pa_num (fst x)); signed (snd x)].
Lemma combine_skipn : forall A B (l : list A) (l' : list B) k, skipn k (combine l l') = combine (skipn k l) (skipn k l').
Proof.
  intros A B l. induction l as [|x l IH]; intros l' k.
  - cbn [combine]. rewrite !skipn_nil. reflexivity.
  - destruct l' as [|y l']; [cbn [combine]; rewrite !skipn_nil; destruct (skipn k (x :: l)); reflexivity|]. destruct k as [|k]; [reflexivity|]. cbn [combine skipn]. apply IH.
Qed.
Notation CELLPAR_ := (str "CELLPAR").
Lemma level_cells_body : forall infos eds n k s, level_cells n k infos eds = Ok s ->
  body s (rows_st CELLPAR_ k (map row3 (firstn n (skipn k (combine infos eds))))) /\ k + n <= Nat.max k (length infos) /\ k + n <= Nat.max k (length eds).
Proof.
  intros infos eds n. induction n as [|n IH]; intros k s H; cbn [level_cells] in H.
  - injection H as <-. split; [constructor; constructor|lia].
  - apply bind_ok in H. destruct H as (p & Ep & H). apply bind_ok in H. destruct H as (i & Ei & H). apply bind_ok in H. destruct H as (c & Ecn & H).
    apply bind_ok in H. destruct H as (r & Er & H). apply bind_ok in H. destruct H as (z & Ez & H).
    apply bind_ok in H. destruct H as (s' & Es & H). apply Ok_inj in H. subst s. apply get_ok in Ep, Er. pose proof (proj1 (nth_error_Some infos k)) as Hlt. specialize (Hlt ltac:(congruence)).
    pose proof (proj1 (nth_error_Some eds k)) as Hlt2. specialize (Hlt2 ltac:(congruence)).
    destruct (IH (k + 1) s' Es) as (Hb & Hk & Hk2). split; [|lia]. rewrite combine_skipn in Hb |- *. rewrite (skipn_nth _ infos k p Ep), (skipn_nth _ eds k r Er). cbn [combine firstn map rows_st]. replace (S k) with (k + 1) by lia.
    change (SetRow CELLPAR_ (N.of_nat (k + 1)) (row3 (p, r)) :: rows_st CELLPAR_ (k + 1) (map row3 (firstn n (combine (skipn (k + 1) infos) (skipn (k + 1) eds))))) with ([SetRow CELLPAR_ (N.of_nat (k + 1)) (row3 (p, r))] ++ rows_st CELLPAR_ (k + 1) (map row3 (firstn n (combine (skipn (k + 1) infos) (skipn (k + 1) eds))))).
    replace (str "CELLPAR(" ++ show (k + 1) ++ str ",:) = [" ++ show_Z i ++ str " , " ++ show_Z c ++ str " , " ++ show_Z z ++ str " ];" ++ newline ++ s')
      with (((CELLPAR_ ++ str "(" ++ show (k + 1) ++ str ",:) = [" ++ (show_Z i ++ str " , " ++ show_Z c ++ str " , " ++ show_Z z) ++ str " ];") ++ newline) ++ s') by (rewrite <- !app_assoc; reflexivity).
    apply body_app; [|exact Hb]. apply body_line; [|exact blank_newline]. apply stmt_row; [ident| |right; reflexivity].
    unfold row3. cbn [fst snd]. rewrite <- (normalize_signed _ _ Ei), <- (normalize_signed _ _ Ecn), <- (normalize_signed _ _ Ez).
    do 2 (apply vals_cons; [apply show_Z_real|right; reflexivity|]). apply vals_one, show_Z_real.
Qed.
Lemma normalize_total : forall i, int_range i -> exists z, normalize_idx i = Ok z.
Proof.
  intros [k|] H; [|eexists; reflexivity]. cbn [int_range] in H. exists (Z.of_nat k). unfold normalize_idx. destruct (Z.leb_spec (Z.of_nat k) 2147483647) as [K|K]; [reflexivity|].
  change (2 ^ 31)%Z with 2147483648%Z in H. lia.
Qed.
Lemma get_total : forall A (l : list A) k, k < length l -> exists x, get l k = Ok x /\ In x l.
Proof.
  intros A l k H. unfold get. destruct (nth_error l k) as [x|] eqn:E; [exists x; split; [reflexivity|eapply nth_error_In; exact E]|]. apply nth_error_None in E. lia.
Qed.
Lemma rows_total : forall name infos n k, k + n <= length infos -> Forall (fun p => int_range (pa_index p) /\ int_range (pa_num p)) infos -> exists s, level_rows name n k infos = Ok s.
Proof.
  intros name infos n. induction n as [|n IH]; intros k Hk H; cbn [level_rows]; [eexists; reflexivity|].
  destruct (get_total _ infos k ltac:(lia)) as (p & -> & Hp). cbn [bind]. rewrite Forall_forall in H. destruct (H p Hp) as [H1 H2].
  destruct (normalize_total _ H1) as (i & ->). destruct (normalize_total _ H2) as (c & ->). cbn [bind]. destruct (IH (k + 1) ltac:(lia) (proj2 (Forall_forall _ _) H)) as (s & ->). eexists. reflexivity.
Qed.
Lemma cells_total : forall infos eds n k, k + n <= length infos -> k + n <= length eds -> Forall (fun p => int_range (pa_index p) /\ int_range (pa_num p)) infos -> Forall int_range eds ->
  exists s, level_cells n k infos eds = Ok s.
Proof.
  intros infos eds n. induction n as [|n IH]; intros k Hk Hk2 H He; cbn [level_cells]; [eexists; reflexivity|].
  destruct (get_total _ infos k ltac:(lia)) as (p & -> & Hp). destruct (get_total _ eds k ltac:(lia)) as (r & -> & Hr). cbn [bind]. rewrite Forall_forall in H, He. destruct (H p Hp) as [H1 H2].
  destruct (normalize_total _ H1) as (i & ->). destruct (normalize_total _ H2) as (c & ->). destruct (normalize_total _ (He r Hr)) as (z & ->). cbn [bind].
  destruct (IH (k + 1) ltac:(lia) ltac:(lia) (proj2 (Forall_forall _ _) H) (proj2 (Forall_forall _ _) He)) as (s & ->). eexists. reflexivity.
Qed.
Lemma columns_map : forall A (f : A -> list decimal) c l, (forall x, length (f x) = c) -> columns (map f l) c = true.
Proof. intros A f c l H. induction l as [|x l IH]; [reflexivity|]. cbn [map columns forallb]. rewrite H, Nat.eqb_refl. exact IH. Qed.
Lemma nonempty_map : forall A B (f : A -> B) l, 0 < length l -> map f l <> [].
Proof. intros A B f [|x l] H; [cbn in H; lia|discriminate]. Qed.
Notation PTPAR_ := (str "PTPAR"). Notation EDPAR_ := (str "EDPAR").
Lemma level_runs : forall L filename f, filled_level L -> matlab_name filename f ->
  exists text, WriteMatlabLevel L filename = Ok (f ++ str ".m", text) /\ run text = Some (f, matlab_parents L).
Proof.
  intros L filename f (P1 & P2 & P3 & L1 & L2 & L3 & L4 & HI & HE) Hn. destruct (file_name filename f Hn) as [En Ef]. pose proof Hn as [Hf _].
  apply Forall_app in HI. destruct HI as [I1 HI]. apply Forall_app in HI. destruct HI as [I2 I3].
  destruct (rows_total PTPAR_ (l_ppar L) (mv_nodes (l_mesh L)) 0 ltac:(lia) I1) as (s1 & E1).
  destruct (rows_total EDPAR_ (l_epar L) (length (mv_edges (l_mesh L))) 0 ltac:(lia) I2) as (s2 & E2).
  destruct (cells_total (l_cpar L) (l_refedge L) (length (mv_cells (l_mesh L))) 0 ltac:(lia) ltac:(lia) I3 HE) as (s3 & E3).
  unfold WriteMatlabLevel. rewrite En, Ef. cbn [bind]. rewrite E1. cbn [bind]. rewrite E2. cbn [bind]. rewrite E3. cbn [bind]. eexists. split; [reflexivity|].
  assert (B1 : body s1 (rows_st PTPAR_ 0 (map row2 (l_ppar L)))). { destruct (rows_body PTPAR_ _ _ _ _ ltac:(ident) E1) as [B _]. cbn [skipn] in B. rewrite <- L1, firstn_all in B. exact B. }
  assert (B2 : body s2 (rows_st EDPAR_ 0 (map row2 (l_epar L)))). { destruct (rows_body EDPAR_ _ _ _ _ ltac:(ident) E2) as [B _]. cbn [skipn] in B. rewrite <- L2, firstn_all in B. exact B. }
  assert (B3 : body s3 (rows_st CELLPAR_ 0 (map row3 (combine (l_cpar L) (l_refedge L))))).
  { destruct (level_cells_body _ _ _ _ _ E3) as [B _]. cbn [skipn] in B. rewrite firstn_all2 in B by (rewrite combine_length; lia). exact B. }
  destruct (append_rows PTPAR_ 2 (map row2 (l_ppar L)) (fun _ => None) []) as (e1 & R1 & _ & V1 & O1); [right; split; reflexivity|reflexivity|apply columns_map; reflexivity|].
  destruct (append_rows EDPAR_ 2 (map row2 (l_epar L)) e1 []) as (e2 & R2 & _ & V2 & O2); [right; split; [rewrite O1 by discriminate; reflexivity|reflexivity]|reflexivity|apply columns_map; reflexivity|].
  destruct (append_rows CELLPAR_ 3 (map row3 (combine (l_cpar L) (l_refedge L))) e2 []) as (e3 & R3 & _ & V3 & O3); [right; split; [rewrite O2, O1 by discriminate; reflexivity|reflexivity]|reflexivity|apply columns_map; reflexivity|].
  refine (run_body (str "function [PTPAR,EDPAR,CELLPAR] =" ++ str " ") f [EDPAR_; CELLPAR_] PTPAR_ (str " Parent data for a hybid 2D mesh") (s1 ++ s2 ++ s3)
     (rows_st PTPAR_ 0 (map row2 (l_ppar L)) ++ rows_st EDPAR_ 0 (map row2 (l_epar L)) ++ rows_st CELLPAR_ 0 (map row3 (combine (l_cpar L) (l_refedge L)))) e3 (matlab_parents L) _ Hf _ _ _ _).
  - intro r. rewrite <- app_assoc. do 6 next. reflexivity.
  - apply comment_line. reflexivity.
  - apply body_app; [exact B1|]. apply body_app; assumption.
  - rewrite (execute_app _ _ _ _ R1), (execute_app _ _ _ _ R2). exact R3.
  - cbn [outputs_of]. rewrite V3 by (apply nonempty_map; rewrite combine_length; lia). rewrite (O3 PTPAR_), (O3 EDPAR_) by discriminate. rewrite V2 by (apply nonempty_map; lia). rewrite (O2 PTPAR_) by discriminate.
    rewrite V1 by (apply nonempty_map; lia). reflexivity.
Qed.

(** *** All levels *)
Lemma digit_char_name : forall d, (d < 10)%N -> name_char (digit_char d) = true.
Proof.
  intros d H. unfold name_char. change (digit_char d) with (dchar d). rewrite (digit_dchar d H). rewrite orb_true_r. reflexivity.
Qed.
Lemma show_name_chars : forall n, Forall (fun c => name_char c = true) (show n).
Proof.
  intro n. unfold show, show_N. apply Forall_map. eapply Forall_impl; [|apply digs_small]. intros d Hd. apply digit_char_name. exact Hd.
Qed.
Lemma identifier_app : forall a b, identifier a -> Forall (fun c => name_char c = true) b -> identifier (a ++ b).
Proof. intros a b (c & r & -> & Hc & Hr) Hb. exists c, (r ++ b). split; [reflexivity|]. split; [exact Hc|]. apply Forall_app. split; assumption. Qed.
Lemma show_inj : forall i j r s, no_digit r -> no_digit s -> show i ++ r = show j ++ s -> i = j /\ r = s.
Proof.
  intros i j r s Hr Hs E. pose proof (index_reads i r Hr) as A. rewrite E, (index_reads j s Hs) in A. injection A as A B. split; [lia|congruence].
Qed.
Definition level_name (base : chars) (k : nat) : chars := base ++ str "_L" ++ show k.
Lemma levels_run : forall xy base ls k, identifier base -> Forall (fun L => filled_level L /\ Forall tri_or_quad (mv_cells (l_mesh L))) ls ->
  exists fs, WriteMatlab_levels k ls xy base = Ok fs /\
    map fst fs = flat_map (fun i => [level_name base i ++ str ".m"; level_name base i ++ str "_pi.m"]) (seq k (length ls)) /\
    forall i L, nth_error ls i = Some L -> exists t1 t2 out,
      nth_error fs (2 * i) = Some (level_name base (k + i) ++ str ".m", t1) /\ nth_error fs (2 * i + 1) = Some (level_name base (k + i) ++ str "_pi.m", t2) /\
      run t1 = Some (level_name base (k + i), out) /\ matlab_mesh (l_mesh L) (xy (k + i)) out /\
      run t2 = Some (level_name base (k + i) ++ str "_pi", matlab_parents L).
Proof.
  intros xy base ls. induction ls as [|L ls IH]; intros k Hb H.
  - exists []. split; [reflexivity|]. split; [reflexivity|]. intros [|i] L Hi; discriminate Hi.
  - inversion H as [|L' ls' [HL HC] Hls]; subst L' ls'. destruct (IH (k + 1) Hb Hls) as (fs & E & Hm & Hfs).
    assert (I1 : identifier (level_name base k)). { apply identifier_app; [exact Hb|]. apply Forall_app. split; [repeat constructor|apply show_name_chars]. }
    assert (I2 : identifier (level_name base k ++ str "_pi")) by (apply identifier_app; [exact I1|repeat constructor]).
    destruct (writeMatlab_runs (l_mesh L) (xy k) (level_name base k ++ str ".m") (level_name base k) HC) as (t1 & x & y & W1 & R1 & X1 & Y1); [split; [exact I1|left; reflexivity]|].
    destruct (level_runs L ((level_name base k ++ str "_pi") ++ str ".m") (level_name base k ++ str "_pi") HL) as (t2 & W2 & R2); [split; [exact I2|left; reflexivity]|].
    rewrite <- app_assoc in W2. change (str "_pi" ++ str ".m") with (str "_pi.m") in W2.
    cbn [WriteMatlab_levels]. cbv zeta. fold (level_name base k). rewrite W1. cbn [bind]. rewrite W2. cbn [bind]. rewrite E. cbn [bind]. eexists. split; [reflexivity|]. split.
    + cbn [map fst length seq flat_map app]. rewrite Hm. replace (k + 1) with (S k) by lia. reflexivity.
    + intros [|i] L0 Hi; cbn [nth_error] in Hi.
      * injection Hi as <-. rewrite Nat.add_0_r. exists t1, t2. eexists. split; [reflexivity|]. split; [reflexivity|]. split; [exact R1|]. split; [|exact R2].
        exists x, y. split; [reflexivity|]. split; assumption.
      * destruct (Hfs i L0 Hi) as (u1 & u2 & out & G1 & G2 & G3). exists u1, u2, out. replace (k + S i) with (k + 1 + i) by lia.
        replace (2 * S i) with (S (S (2 * i))) by lia. cbn [Nat.add nth_error]. split; [exact G1|]. split; [exact G2|exact G3].
Qed.
Lemma level_names_inj : forall base i j a b, In a [str ".m"; str "_pi.m"] -> In b [str ".m"; str "_pi.m"] -> level_name base i ++ a = level_name base j ++ b -> i = j /\ a = b.
Proof.
  intros base i j a b Ha Hb E. unfold level_name in E. rewrite <- !app_assoc in E. apply app_inv_head in E. apply app_inv_head in E.
  apply show_inj in E; [exact E| |].
  - destruct Ha as [<-|[<-|[]]]; reflexivity.
  - destruct Hb as [<-|[<-|[]]]; reflexivity.
Qed.
Lemma level_names_nodup : forall base n k, NoDup (flat_map (fun i => [level_name base i ++ str ".m"; level_name base i ++ str "_pi.m"]) (seq k n)).
Proof.
  intros base n. induction n as [|n IH]; intro k; [constructor|]. cbn [seq flat_map app].
  assert (K : forall a, In a [str ".m"; str "_pi.m"] -> ~ In (level_name base k ++ a) (flat_map (fun i => [level_name base i ++ str ".m"; level_name base i ++ str "_pi.m"]) (seq (S k) n))).
  { intros a Ha Hin. apply in_flat_map in Hin. destruct Hin as (j & Hj & Hin). apply in_seq in Hj.
    destruct Hin as [Hin|[Hin|[]]]; symmetry in Hin; apply level_names_inj in Hin; try exact Ha; try (left; reflexivity); try (right; left; reflexivity); lia. }
  constructor; [|constructor; [|apply IH]].
  - intros [Hin|Hin]; [|revert Hin; apply K; left; reflexivity].
    symmetry in Hin. apply level_names_inj in Hin; [destruct Hin as [_ Hin]; discriminate Hin|left; reflexivity|right; left; reflexivity].
  - apply K. right. left. reflexivity.
Qed.
