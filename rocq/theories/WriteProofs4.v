(** The function in a file written by writeMatlab returns the mesh. *)
From Coq Require Import String Ascii List Arith NArith ZArith QArith Qabs Bool Lia.
Import ListNotations.
From Verif Require Import Base MeshView MshModel MshSpec MshProofs RefineModel WriteModel WriteSpec WriteProofs WriteProofs2 WriteProofs3.
Local Open Scope list_scope.
Local Open Scope nat_scope.

(** *** Execution *)
Lemma assign_same : forall e v a, assign e v a v = Some a.
Proof. intros e v a. unfold assign. destruct (list_eq_dec ascii_dec v v); [reflexivity|congruence]. Qed.
Lemma assign_other : forall e v a w, w <> v -> assign e v a w = e w.
Proof. intros e v a w H. unfold assign. destruct (list_eq_dec ascii_dec w v); [congruence|reflexivity]. Qed.
Lemma execute_app : forall l1 l2 e e', execute_all e l1 = Some e' -> execute_all e (l1 ++ l2) = execute_all e' l2.
Proof.
  induction l1 as [|s l1 IH]; intros l2 e e' H; cbn [execute_all app] in *; [congruence|].
  destruct (execute e s) as [e1|]; [|discriminate H]. apply IH. exact H.
Qed.
Lemma replace_middle : forall (A B : matrix) b r, replace_row (A ++ b :: B) (length A) r = A ++ r :: B.
Proof.
  intros A B b r. unfold replace_row. f_equal.
  - rewrite firstn_app, Nat.sub_diag, firstn_all. cbn. apply app_nil_r.
  - f_equal. rewrite skipn_app. rewrite skipn_all2 by lia. replace (S (length A) - length A) with 1 by lia. reflexivity.
Qed.
Lemma replace_end : forall (A : matrix) r, replace_row A (length A) r = A ++ [r].
Proof. intros A r. unfold replace_row. rewrite firstn_all, skipn_all2 by lia. reflexivity. Qed.
Lemma columns_app : forall A B n, columns (A ++ B) n = columns A n && columns B n.
Proof. intros. apply forallb_app. Qed.
Lemma columns_repeat : forall r c k, length r = c -> columns (repeat r k) c = true.
Proof. intros r c k H. induction k as [|k IH]; [reflexivity|]. cbn [repeat columns forallb]. fold (columns (repeat r k) c). rewrite IH, H, Nat.eqb_refl. reflexivity. Qed.

(** Rows that replace existing ones. *)
Fixpoint rows_st (v : chars) (k : nat) (rows : matrix) : list statement :=
  match rows with [] => [] | r :: l => SetRow v (N.of_nat (k + 1)) r :: rows_st v (k + 1) l end.
Lemma replace_rows : forall v c rows e A B, e v = Some (A ++ B) -> length B = length rows ->
  columns (A ++ B) c = true -> columns rows c = true ->
  exists e', execute_all e (rows_st v (length A) rows) = Some e' /\ e' v = Some (A ++ rows) /\ forall w, w <> v -> e' w = e w.
Proof.
  intros v c rows. induction rows as [|r rows IH]; intros e A B He Hl Hc Hr.
  - destruct B; [|discriminate Hl]. exists e. split; [reflexivity|]. split; [exact He|reflexivity].
  - destruct B as [|b B]; [discriminate Hl|]. cbn [columns forallb] in Hr. apply andb_true_iff in Hr. destruct Hr as [Hr Hrs]. apply Nat.eqb_eq in Hr.
    cbn [rows_st execute_all execute]. rewrite He, Nat2N.id. replace (length A + 1 - 1) with (length A) by lia. rewrite replace_middle.
    assert (G : (1 <=? length A + 1) && (length A + 1 <=? length (A ++ b :: B) + 1) && columns (A ++ b :: B) (length r) = true).
    { rewrite Hr, Hc, andb_true_r. apply andb_true_iff. split; apply Nat.leb_le; rewrite ?app_length; lia. }
    rewrite G. destruct (IH (assign e v (A ++ r :: B)) (A ++ [r]) B) as (e' & E1 & E2 & E3).
    + rewrite assign_same, <- app_assoc. reflexivity.
    + cbn [length] in Hl. lia.
    + rewrite columns_app in Hc. apply andb_true_iff in Hc. destruct Hc as [H1 H2]. cbn [columns forallb] in H2. apply andb_true_iff in H2. destruct H2 as [_ H2].
      rewrite !columns_app. apply andb_true_iff. split; [|exact H2]. apply andb_true_iff. split; [exact H1|]. cbn. rewrite Hr, Nat.eqb_refl. reflexivity.
    + exact Hrs.
    + rewrite app_length in E1. cbn [length] in E1. exists e'. split; [exact E1|]. split; [rewrite E2, <- app_assoc; reflexivity|].
      intros w Hw. rewrite (E3 w Hw). apply assign_other. exact Hw.
Qed.
(** Rows that are appended. *)
Definition current (e : variables) (v : chars) (A : matrix) : Prop := e v = Some A \/ (e v = None /\ A = []).
Lemma append_row : forall e v A c r, current e v A -> columns A c = true -> length r = c ->
  execute e (SetRow v (N.of_nat (length A + 1)) r) = Some (assign e v (A ++ [r])).
Proof.
  intros e v A c r HA Hc Hr. cbn [execute]. assert (E : match e v with Some a => a | None => [] end = A) by (destruct HA as [->|[-> ->]]; reflexivity).
  rewrite E, Nat2N.id. replace (length A + 1 - 1) with (length A) by lia. rewrite replace_end, Hr, Hc, andb_true_r.
  destruct (Nat.leb_spec 1 (length A + 1)); [|lia]. destruct (Nat.leb_spec (length A + 1) (length A + 1)); [reflexivity|lia].
Qed.
Lemma append_rows : forall v c rows e A, current e v A -> columns A c = true -> columns rows c = true ->
  exists e', execute_all e (rows_st v (length A) rows) = Some e' /\ current e' v (A ++ rows) /\ (rows <> [] -> e' v = Some (A ++ rows)) /\ forall w, w <> v -> e' w = e w.
Proof.
  intros v c rows. induction rows as [|r rows IH]; intros e A HA Hc Hr.
  - exists e. rewrite app_nil_r. split; [reflexivity|]. split; [exact HA|]. split; [congruence|reflexivity].
  - cbn [columns forallb] in Hr. apply andb_true_iff in Hr. destruct Hr as [Hr Hrs]. apply Nat.eqb_eq in Hr.
    cbn [rows_st execute_all]. rewrite (append_row e v A c r HA Hc Hr).
    destruct (IH (assign e v (A ++ [r])) (A ++ [r])) as (e' & E1 & E2 & E3 & E4).
    + left. apply assign_same.
    + rewrite columns_app, Hc. cbn. rewrite Hr, Nat.eqb_refl. reflexivity.
    + exact Hrs.
    + rewrite app_length in E1. cbn [length] in E1. rewrite <- app_assoc in E2, E3. exists e'. split; [exact E1|]. split; [exact E2|]. split.
      * intros _. destruct rows as [|r2 rows]; [|apply E3; discriminate]. cbn [rows_st execute_all] in E1. injection E1 as <-. apply assign_same.
      * intros w Hw. rewrite (E4 w Hw). apply assign_other. exact Hw.
Qed.

(** *** Nodes *)
Notation X_ := (str "x"). Notation Y_ := (str "y").
Ltac ident := match goal with |- identifier ?s => let t := eval cbv in s in match t with ?c :: ?r => exists c, r; split; [reflexivity|]; split; [reflexivity|]; repeat constructor end end.
Fixpoint nodes_st (k : nat) (ds : list (decimal * decimal)) : list statement :=
  match ds with
  | [] => []
  | (dx, dy) :: r => SetElement X_ (N.of_nat (k + 1)) dx :: SetElement Y_ (N.of_nat (k + 1)) dy :: nodes_st (k + 1) r
  end.
Definition approximates (ds : list (decimal * decimal)) (f : nat -> Q * Q) (k : nat) : Prop :=
  forall i d, nth_error ds i = Some d -> six_digits (fst d) (fst (f (k + i))) /\ six_digits (snd d) (snd (f (k + i))).
Lemma blank_newline : blank newline.
Proof. apply white_blank. reflexivity. Qed.
Lemma blank_line_end : blank (str " " ++ newline).
Proof. apply blank_app; apply white_blank; reflexivity. Qed.
Lemma nodes_body : forall xy n k, exists ds, length ds = n /\ approximates ds xy k /\ body (concat (map (matlab_node xy) (seq k n))) (nodes_st k ds).
Proof.
  intros xy n. induction n as [|n IH]; intro k.
  - exists []. split; [reflexivity|]. split; [intros [|i] d Hd; discriminate Hd|]. constructor. constructor.
  - destruct (IH (S k)) as (ds & Hl & Ha & Hb). destruct (show_g_spec (fst (xy k))) as (dx & Rx & Cx & _). destruct (show_g_spec (snd (xy k))) as (dy & Ry & Cy & _).
    exists ((dx, dy) :: ds). split; [cbn [length]; lia|]. split.
    + intros [|i] d Hd; cbn [nth_error] in Hd.
      * injection Hd as <-. rewrite Nat.add_0_r. split; assumption.
      * replace (k + S i) with (S k + i) by lia. apply Ha. exact Hd.
    + cbn [seq map concat nodes_st]. replace (k + 1) with (S k) at 3 by lia.
      change (SetElement X_ (N.of_nat (k + 1)) dx :: SetElement Y_ (N.of_nat (k + 1)) dy :: nodes_st (S k) ds) with (([SetElement X_ (N.of_nat (k + 1)) dx] ++ [SetElement Y_ (N.of_nat (k + 1)) dy]) ++ nodes_st (S k) ds).
      apply body_app; [|exact Hb]. unfold matlab_node.
      replace (str "x(" ++ show (k + 1) ++ str ") = " ++ show_g (fst (xy k)) ++ str "; " ++ newline ++ str "y(" ++ show (k + 1) ++ str ") = " ++ show_g (snd (xy k)) ++ str "; " ++ newline)
        with (((X_ ++ str "(" ++ show (k + 1) ++ str ") = " ++ show_g (fst (xy k)) ++ str ";") ++ (str " " ++ newline)) ++ ((Y_ ++ str "(" ++ show (k + 1) ++ str ") = " ++ show_g (snd (xy k)) ++ str ";") ++ (str " " ++ newline))) by (rewrite <- !app_assoc; reflexivity).
      apply body_app; apply body_line; try exact blank_line_end; apply stmt_element; try assumption; ident.
Qed.
Lemma set_element : forall e v A b B d, e v = Some (A ++ b :: B) -> columns (A ++ b :: B) 1 = true ->
  execute e (SetElement v (N.of_nat (length A + 1)) d) = Some (assign e v (A ++ [d] :: B)).
Proof.
  intros e v A b B d He Hc. cbn [execute]. rewrite He, Hc, Nat2N.id, andb_true_r. replace (length A + 1 - 1) with (length A) by lia. rewrite replace_middle.
  destruct (Nat.leb_spec 1 (length A + 1)); [|lia]. destruct (Nat.leb_spec (length A + 1) (length (A ++ b :: B))) as [_|K]; [reflexivity|]. rewrite app_length in K. cbn [length] in K. lia.
Qed.
Lemma nodes_run : forall ds e A A' B B', e X_ = Some (A ++ B) -> e Y_ = Some (A' ++ B') -> length A' = length A -> length B = length ds -> length B' = length ds ->
  columns (A ++ B) 1 = true -> columns (A' ++ B') 1 = true ->
  exists e', execute_all e (nodes_st (length A) ds) = Some e' /\ e' X_ = Some (A ++ map (fun d => [fst d]) ds) /\ e' Y_ = Some (A' ++ map (fun d => [snd d]) ds) /\
    forall w, w <> X_ -> w <> Y_ -> e' w = e w.
Proof.
  induction ds as [|[dx dy] ds IH]; intros e A A' B B' Hx Hy Hl HB HB' Hc Hc'.
  - destruct B; [|discriminate HB]. destruct B'; [|discriminate HB']. exists e. split; [reflexivity|]. split; [exact Hx|]. split; [exact Hy|reflexivity].
  - destruct B as [|b B]; [discriminate HB|]. destruct B' as [|b' B']; [discriminate HB'|]. cbn [nodes_st execute_all].
    rewrite (set_element e X_ A b B dx Hx Hc).
    assert (Hy' : assign e X_ (A ++ [dx] :: B) Y_ = Some (A' ++ b' :: B')) by (rewrite assign_other by discriminate; exact Hy).
    replace (N.of_nat (length A + 1)) with (N.of_nat (length A' + 1)) by (rewrite Hl; reflexivity). rewrite (set_element _ Y_ A' b' B' dy Hy' Hc').
    destruct (IH (assign (assign e X_ (A ++ [dx] :: B)) Y_ (A' ++ [dy] :: B')) (A ++ [[dx]]) (A' ++ [[dy]]) B B') as (e' & E1 & E2 & E3 & E4).
    + rewrite assign_other, assign_same, <- app_assoc by discriminate. reflexivity.
    + rewrite assign_same, <- app_assoc. reflexivity.
    + rewrite !app_length, Hl. reflexivity.
    + cbn [length] in HB. lia.
    + cbn [length] in HB'. lia.
    + rewrite columns_app in Hc. apply andb_true_iff in Hc. destruct Hc as [H1 H2]. cbn [columns forallb] in H2. apply andb_true_iff in H2. destruct H2 as [_ H2]. rewrite !columns_app, H1. exact H2.
    + rewrite columns_app in Hc'. apply andb_true_iff in Hc'. destruct Hc' as [H1 H2]. cbn [columns forallb] in H2. apply andb_true_iff in H2. destruct H2 as [_ H2]. rewrite !columns_app, H1. exact H2.
    + rewrite app_length in E1. cbn [length] in E1. exists e'. split; [exact E1|]. split; [rewrite E2, <- app_assoc; reflexivity|]. split; [rewrite E3, <- app_assoc; reflexivity|].
      intros w Hw1 Hw2. rewrite (E4 w Hw1 Hw2), !assign_other by assumption. reflexivity.
Qed.

(** *** Edges *)
Notation EDS_ := (str "EDS"). Notation TRI_ := (str "TRI"). Notation QUAD_ := (str "QUAD").
Definition from {A} (i : nat) (l : list A) : list (nat * A) := combine (seq i (length l)) l.
Definition edge_row (p : nat * nat) : list decimal := map nat_ [fst p + 1; snd p + 1].
Lemma edges_body : forall es i, body (matlab_edges i es) (rows_st EDS_ i (map edge_row es)).
Proof.
  induction es as [|[p0 p1] es IH]; intro i; cbn [matlab_edges map rows_st]; [constructor; constructor|].
  change (SetRow EDS_ (N.of_nat (i + 1)) (edge_row (p0, p1)) :: rows_st EDS_ (i + 1) (map edge_row es)) with ([SetRow EDS_ (N.of_nat (i + 1)) (edge_row (p0, p1))] ++ rows_st EDS_ (i + 1) (map edge_row es)).
  replace (str "EDS(" ++ show (i + 1) ++ str ",:) = [" ++ show (p0 + 1) ++ str ", " ++ show (p1 + 1) ++ str "];" ++ newline ++ matlab_edges (i + 1) es)
    with (((EDS_ ++ str "(" ++ show (i + 1) ++ str ",:) = [" ++ (show (p0 + 1) ++ str ", " ++ show (p1 + 1)) ++ str "];") ++ newline) ++ matlab_edges (i + 1) es) by (rewrite <- !app_assoc; reflexivity).
  apply body_app; [|apply IH]. apply body_line; [|exact blank_newline]. apply stmt_row; [ident| |left; reflexivity].
  unfold edge_row. cbn [fst snd map]. apply vals_cons; [apply show_real|left; reflexivity|]. apply vals_one, show_real.
Qed.

(** *** Cells *)
Definition cell_row (i : nat) (c : cellv) : list nat := map (fun n => n + 1) (cv_nodes c) ++ [i].
Definition rows_of (n : nat) (l : list (nat * cellv)) : matrix := map (fun x => map nat_ (cell_row (fst x) (snd x))) (filter (corners n) l).
Fixpoint cells_st (t q : nat) (l : list (nat * cellv)) : list statement :=
  match l with
  | [] => []
  | (i, c) :: r =>
      if length (cv_nodes c) =? 3 then SetRow TRI_ (N.of_nat (t + 1)) (map nat_ (cell_row i c)) :: cells_st (t + 1) q r
      else SetRow QUAD_ (N.of_nat (q + 1)) (map nat_ (cell_row i c)) :: cells_st t (q + 1) r
  end.
Lemma cells_body : forall cs i t q, Forall tri_or_quad cs -> exists s, matlab_cells i t q cs = Ok s /\ body s (cells_st t q (from i cs)).
Proof.
  induction cs as [|c cs IH]; intros i t q H.
  - exists []. split; [reflexivity|]. constructor. constructor.
  - inversion H as [|c' cs' Hc Hcs]; subst c' cs'. unfold from. cbn [length seq combine cells_st]. fold (@from cellv (S i) cs). cbn [matlab_cells].
    destruct c as [ns eds os]. unfold tri_or_quad in Hc. cbn [cv_nodes] in *. unfold cell_row at 1 2. cbn [cv_nodes].
    destruct Hc as [Hc|Hc].
    + destruct ns as [|n0 [|n1 [|n2 [|n3 ns]]]]; try discriminate Hc. replace (i + 1) with (S i) by lia. destruct (IH (S i) (t + 1) q Hcs) as (s & E & Hb). rewrite E. cbn [bind].
      eexists. split; [reflexivity|]. cbn [length Nat.eqb map app].
      change (SetRow TRI_ (N.of_nat (t + 1)) [nat_ (n0 + 1); nat_ (n1 + 1); nat_ (n2 + 1); nat_ i] :: cells_st (t + 1) q (from (S i) cs)) with ([SetRow TRI_ (N.of_nat (t + 1)) [nat_ (n0 + 1); nat_ (n1 + 1); nat_ (n2 + 1); nat_ i]] ++ cells_st (t + 1) q (from (S i) cs)).
      replace (str "TRI(" ++ show (t + 1) ++ str ",:) = [" ++ show (n0 + 1) ++ str ", " ++ show (n1 + 1) ++ str ", " ++ show (n2 + 1) ++ str ", " ++ show i ++ str " ];" ++ newline ++ s)
        with (((TRI_ ++ str "(" ++ show (t + 1) ++ str ",:) = [" ++ (show (n0 + 1) ++ str ", " ++ show (n1 + 1) ++ str ", " ++ show (n2 + 1) ++ str ", " ++ show i) ++ str " ];") ++ newline) ++ s) by (rewrite <- !app_assoc; reflexivity).
      apply body_app; [|exact Hb]. apply body_line; [|exact blank_newline]. apply stmt_row; [ident| |right; reflexivity].
      do 3 (apply vals_cons; [apply show_real|left; reflexivity|]). apply vals_one, show_real.
    + destruct ns as [|n0 [|n1 [|n2 [|n3 [|n4 ns]]]]]; try discriminate Hc. replace (i + 1) with (S i) by lia. destruct (IH (S i) t (q + 1) Hcs) as (s & E & Hb). rewrite E. cbn [bind].
      eexists. split; [reflexivity|]. cbn [length Nat.eqb map app].
      change (SetRow QUAD_ (N.of_nat (q + 1)) [nat_ (n0 + 1); nat_ (n1 + 1); nat_ (n2 + 1); nat_ (n3 + 1); nat_ i] :: cells_st t (q + 1) (from (S i) cs)) with ([SetRow QUAD_ (N.of_nat (q + 1)) [nat_ (n0 + 1); nat_ (n1 + 1); nat_ (n2 + 1); nat_ (n3 + 1); nat_ i]] ++ cells_st t (q + 1) (from (S i) cs)).
      replace (str "QUAD(" ++ show (q + 1) ++ str ",:) = [" ++ show (n0 + 1) ++ str ", " ++ show (n1 + 1) ++ str ", " ++ show (n2 + 1) ++ str ", " ++ show (n3 + 1) ++ str ", " ++ show i ++ str " ];" ++ newline ++ s)
        with (((QUAD_ ++ str "(" ++ show (q + 1) ++ str ",:) = [" ++ (show (n0 + 1) ++ str ", " ++ show (n1 + 1) ++ str ", " ++ show (n2 + 1) ++ str ", " ++ show (n3 + 1) ++ str ", " ++ show i) ++ str " ];") ++ newline) ++ s) by (rewrite <- !app_assoc; reflexivity).
      apply body_app; [|exact Hb]. apply body_line; [|exact blank_newline]. apply stmt_row; [ident| |right; reflexivity].
      do 4 (apply vals_cons; [apply show_real|left; reflexivity|]). apply vals_one, show_real.
Qed.
Lemma cell_row_length : forall i c, length (map nat_ (cell_row i c)) = length (cv_nodes c) + 1.
Proof. intros. unfold cell_row. rewrite map_length, app_length, map_length. reflexivity. Qed.
Lemma rows_of_cons : forall n i c l, rows_of n ((i, c) :: l) = if length (cv_nodes c) =? n then map nat_ (cell_row i c) :: rows_of n l else rows_of n l.
Proof. intros n i c l. unfold rows_of. cbn [filter]. unfold corners at 1. cbn [snd]. destruct (length (cv_nodes c) =? n); reflexivity. Qed.
Lemma cells_run : forall l e A B, Forall tri_or_quad (map snd l) -> e TRI_ = Some A -> e QUAD_ = Some B -> columns A 4 = true -> columns B 5 = true ->
  exists e', execute_all e (cells_st (length A) (length B) l) = Some e' /\ e' TRI_ = Some (A ++ rows_of 3 l) /\ e' QUAD_ = Some (B ++ rows_of 4 l) /\
    forall w, w <> TRI_ -> w <> QUAD_ -> e' w = e w.
Proof.
  induction l as [|[i c] l IH]; intros e A B H HA HB CA CB.
  - exists e. unfold rows_of. cbn. rewrite !app_nil_r. split; [reflexivity|]. split; [exact HA|]. split; [exact HB|reflexivity].
  - cbn [map snd] in H. inversion H as [|c' cs' Hc Hcs]; subst c' cs'. cbn [cells_st]. rewrite !rows_of_cons.
    pose proof (cell_row_length i c) as Hr. destruct Hc as [Hc|Hc]; rewrite Hc in *; cbn [Nat.eqb].
    + cbn [execute_all]. rewrite (append_row e TRI_ A 4 _ (or_introl HA) CA Hr).
      destruct (IH (assign e TRI_ (A ++ [map nat_ (cell_row i c)])) (A ++ [map nat_ (cell_row i c)]) B) as (e' & E1 & E2 & E3 & E4).
      * exact Hcs.
      * apply assign_same.
      * rewrite assign_other by discriminate. exact HB.
      * rewrite columns_app, CA. cbn [columns forallb]. rewrite Hr. reflexivity.
      * exact CB.
      * rewrite app_length in E1. cbn [length] in E1. exists e'. split; [exact E1|]. split; [rewrite E2, <- app_assoc; reflexivity|]. split; [exact E3|].
        intros w W1 W2. rewrite (E4 w W1 W2). apply assign_other. exact W1.
    + cbn [execute_all]. rewrite (append_row e QUAD_ B 5 _ (or_introl HB) CB Hr).
      destruct (IH (assign e QUAD_ (B ++ [map nat_ (cell_row i c)])) A (B ++ [map nat_ (cell_row i c)])) as (e' & E1 & E2 & E3 & E4).
      * exact Hcs.
      * rewrite assign_other by discriminate. exact HA.
      * apply assign_same.
      * exact CA.
      * rewrite columns_app, CB. cbn [columns forallb]. rewrite Hr. reflexivity.
      * rewrite app_length in E1. cbn [length] in E1. exists e'. split; [exact E1|]. split; [exact E2|]. split; [rewrite E3, <- app_assoc; reflexivity|].
        intros w W1 W2. rewrite (E4 w W1 W2). apply assign_other. exact W2.
Qed.

(** *** Names of files *)
Lemma name_char_no_dot : forall f, identifier f -> Forall (fun c => c <> "."%char) f.
Proof.
  intros f (c & r & -> & Hc & Hr). constructor.
  - intros ->. discriminate Hc.
  - eapply Forall_impl; [|exact Hr]. intros d Hd ->. discriminate Hd.
Qed.
Lemma last_nth : forall (l : chars) d, nth (length l - 1) l d = last l d.
Proof.
  induction l as [|c l IH]; intro d; [reflexivity|]. cbn [length]. destruct l as [|c2 l]; [reflexivity|].
  replace (S (length (c2 :: l)) - 1) with (S (length (c2 :: l) - 1)) by (cbn [length]; lia). change (nth (length (c2 :: l) - 1) (c2 :: l) d = last (c2 :: l) d). apply IH.
Qed.
Lemma file_name : forall filename f, matlab_name filename f -> matlab_file filename = f ++ str ".m" /\ matlab_function (f ++ str ".m") = Ok f.
Proof.
  intros filename f [Hf H]. split.
  - unfold matlab_file. destruct H as [->|(-> & Hl & Hm)].
    + assert (E : nth (length (f ++ str ".m") - 2) (f ++ str ".m") "000"%char = "."%char).
      { rewrite app_length. cbn [str list_ascii_of_string length]. rewrite app_nth2 by lia. replace (length f + 2 - 2 - length f) with 0 by lia. reflexivity. }
      rewrite E. change (negb (Ascii.eqb "." ".")) with false. rewrite andb_false_r. reflexivity.
    + assert (E1 : (1 <? length f) = true) by (apply Nat.ltb_lt; lia).
      assert (E2 : Ascii.eqb (nth (length f - 2) f "000"%char) "." = false).
      { apply Ascii.eqb_neq. pose proof (name_char_no_dot f Hf) as D. rewrite Forall_forall in D. apply D. apply nth_In. lia. }
      assert (E3 : Ascii.eqb (nth (length f - 1) f "000"%char) "m" = false). { apply Ascii.eqb_neq. rewrite last_nth. exact Hm. }
      rewrite E1, E2, E3. reflexivity.
  - unfold matlab_function. rewrite app_length. cbn [str list_ascii_of_string length]. destruct (Nat.leb_spec 2 (length f + 2)); [|lia]. cbn [lf_assert bind].
    replace (length f + 2 - 2) with (length f) by lia. rewrite firstn_app, firstn_all, Nat.sub_diag. cbn [firstn]. rewrite app_nil_r. reflexivity.
Qed.
