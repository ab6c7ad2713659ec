(** Files are read back. *)
From Coq Require Import String Ascii List Arith NArith ZArith QArith Qabs Bool Lia.
Import ListNotations.
From Verif Require Import Base MshModel MshSpec MshProofs WriteModel WriteSpec WriteProofs VtkFileModel VtkFileSpec VtkFileProofs VtkFileProofs2 VtkFileProofs3.
Local Open Scope list_scope.
Local Open Scope nat_scope.

Lemma line_reads : forall l r, ~ In "010"%char l -> line (l ++ nl ++ r) = Some (l, r).
Proof.
  induction l as [|c l IH]; intros r H; cbn [app].
  - reflexivity.
  - cbn [line]. destruct (Ascii.eqb_spec c "010") as [->|K]; [exfalso; apply H; left; reflexivity|]. rewrite IH by (intro; apply H; right; assumption). reflexivity.
Qed.
Lemma check_ok : forall b s, b = true -> check b s = Some (tt, s).
Proof. intros b s ->. reflexivity. Qed.
Lemma valid_iff : forall f, (ValidateVtkFile f = Ok tt <-> valid f) /\ (~ valid f -> ValidateVtkFile f = Throw).
Proof.
  intro f. unfold ValidateVtkFile, valid.
  assert (V1 : negb (existsb (fun c => Ascii.eqb c "010") (header f)) = true <-> ~ In "010"%char (header f)).
  { rewrite negb_true_iff. split.
    - intros H K. assert (E : existsb (fun c => Ascii.eqb c "010") (header f) = true) by (apply existsb_exists; exists "010"%char; split; [exact K|reflexivity]). congruence.
    - intro H. destruct (existsb (fun c => Ascii.eqb c "010") (header f)) eqn:E; [|reflexivity]. apply existsb_exists in E. destruct E as (c & Hc & Ec). apply Ascii.eqb_eq in Ec. subst c. contradiction. }
  assert (V2 : (length (header f) <=? 256) = true <-> length (header f) <= 256) by apply Nat.leb_le.
  assert (V3 : (length (cell_types (grid_ f)) =? length (cells (grid_ f))) = true <-> length (cell_types (grid_ f)) = length (cells (grid_ f))) by apply Nat.eqb_eq.
  assert (V4 : forall n l, forallb (fun a => data_size a =? n) l = true <-> Forall (fun a => data_size a = n) l).
  { intros n l. rewrite forallb_forall, Forall_forall. split; intros H a Ha; apply Nat.eqb_eq, H, Ha. }
  pose proof (V4 (length (points (grid_ f))) (point_data f)) as V5. pose proof (V4 (length (cells (grid_ f))) (cell_data f)) as V6. clear V4.
  revert V1 V2 V3 V5 V6. generalize (negb (existsb (fun c => Ascii.eqb c "010") (header f))), (length (header f) <=? 256), (length (cell_types (grid_ f)) =? length (cells (grid_ f))),
    (forallb (fun a => data_size a =? length (points (grid_ f))) (point_data f)), (forallb (fun a => data_size a =? length (cells (grid_ f))) (cell_data f)).
  intros b1 b2 b3 b4 b5 V1 V2 V3 V5 V6. rewrite <- V1, <- V2, <- V3, <- V5, <- V6. clear.
  destruct b1; cbn [verify bind]; [|split; [split; [discriminate|intros (K & _); discriminate]|reflexivity]].
  destruct b2; cbn [verify bind]; [|split; [split; [discriminate|intros (_ & K & _); discriminate]|reflexivity]].
  destruct b3; cbn [verify bind]; [|split; [split; [discriminate|intros (_ & _ & K & _); discriminate]|reflexivity]].
  destruct b4; cbn [verify bind]; [|split; [split; [discriminate|intros (_ & _ & _ & K & _); discriminate]|reflexivity]].
  destruct b5; cbn [verify bind]; [|split; [split; [discriminate|intros (_ & _ & _ & _ & K); discriminate]|reflexivity]].
  split; [split; [repeat split|reflexivity]|]. intro K. exfalso. apply K. repeat split.
Qed.
Lemma all_cells_ok : forall b cs, Forall (good_cell b) cs -> exists s, all_cells b cs = Ok s.
Proof.
  intros b cs H. induction H as [|c cs (_ & _ & Hne) Hcs [s IH]]; cbn [all_cells]; [eexists; reflexivity|]. rewrite IH. destruct b; cbn [cells_vector].
  - destruct (separated_some sp (map (number_text (Integer UInt)) c)) as [t ->]; [specialize (Hne eq_refl); destruct c; [congruence|discriminate]|]. cbn [bind]. eexists. reflexivity.
  - cbn [bind]. eexists. reflexivity.
Qed.
Lemma no_data_word : forall w r, is_word w -> same w (str "SCALARS") || same w (str "VECTORS") = false -> okt r -> no_data (w ++ r).
Proof. intros w r Hw E Hr p Hp. rewrite (word_reads p w r Hp Hw Hr). exact E. Qed.
Lemma no_data_nil : no_data [].
Proof. intros p Hp. unfold VtkFileSpec.word. rewrite app_nil_r, skip_all by exact Hp. reflexivity. Qed.
Ltac next E := rewrite (then_some _ _ _ _ _ _ _ E).
Lemma file_reads : forall f, valid f -> good f -> exists s c, root f = Ok s /\ read_file s = Some c /\ reproduces f c.
Proof.
  intros f (Vh & _ & Vt & Vp & Vc) (Gp & Gc & Gt & Gf & Gpd & Gcd). set (b := format_ f) in *. unfold root, unstructured_grid, cells_section. fold b. set (g := grid_ f) in *.
  destruct (all_cells_ok b (cells g) Gc) as [t Et]. rewrite Et. cbn [bind].
  pose proof (all_cells_layout b _ t Gc Et) as Lc. pose proof (types_layout b (cell_types g)) as Lt. pose proof (vector_layout b Float (points g) Gp) as Lp. fold (points_vector b (points g)) in Lp.
  set (rest4 := flat_map (attribute_text b) (cell_data f)).
  set (rest3 := str "CELL_DATA" ++ sp ++ show (length (cells g)) ++ nl ++ rest4).
  set (rest2 := str "POINT_DATA" ++ sp ++ show (length (points g)) ++ nl ++ flat_map (attribute_text b) (point_data f) ++ rest3).
  set (rest1 := str "FIELD" ++ sp ++ str "FieldData" ++ sp ++ show (length (field_data f)) ++ nl ++ flat_map (fun a => match field_array b a with Some t => t | None => [] end) (field_data f) ++ rest2).
  set (resta := str "CELL_TYPES" ++ sp ++ show (length (cell_types g)) ++ nl ++ (flat_map (cell_type b) (cell_types g) ++ nl) ++ rest1).
  set (restb := str "CELLS" ++ sp ++ show (length (cells g)) ++ sp ++ show (cell_list_size (cells g)) ++ nl ++ (t ++ nl) ++ resta).
  set (restc := str "DATASET" ++ sp ++ str "UNSTRUCTURED_GRID" ++ nl ++ str "POINTS" ++ sp ++ show (length (points g)) ++ sp ++ type_word (Real Float) ++ nl ++ points_vector b (points g) ++ restb).
  set (whole := str "# vtk DataFile Version 3.0" ++ nl ++ header f ++ nl ++ format_name b ++ nl ++ restc).
  destruct (vectors_read b (Real Float) (points g) (points_vector b (points g)) restb Gp Lp) as (ps & p1 & E1 & B1 & A1).
  destruct (array_reads b (Integer Int) (flat_cells (cells g)) (t ++ nl) resta (flat_cells_in_type b _ Gc) Lc) as (cs & p2 & E2 & B2 & A2).
  apply agrees_whole in A2. subst cs.
  destruct (array_reads b (Integer Int) (cell_types g) _ rest1 Gt Lt) as (ts & p3 & E3 & B3 & A3). apply agrees_whole in A3. subst ts.
  destruct (fields_read b (field_data f) Gf nl rest2 blank_nl) as (fs & p4 & E4 & B4 & A4).
  assert (N3 : no_data rest3) by (apply no_data_word; [apply wordb_ok; reflexivity|reflexivity|apply okt_sp]).
  destruct (datas_read b (length (points g)) (point_data f) nl rest3 Gpd Vp blank_nl N3) as (pd & p5 & E5 & B5 & A5).
  destruct (datas_read b (length (cells g)) (cell_data f) nl [] Gcd Vc blank_nl no_data_nil) as (cd & p6 & E6 & B6 & A6). rewrite !app_nil_r in E6. fold rest4 in E6.
  exists whole, (mkContents (header f) b ps (map (map Whole) (cells g)) (map Whole (cell_types g)) fs pd cd). split; [|split].
  - f_equal. unfold whole, restc, restb, resta, rest1, rest2, rest3, rest4, points_section, types_section, field_section. rewrite <- !app_assoc. reflexivity.
  - unfold read_file.
    assert (R : reads whole = Some (mkContents (header f) b ps (map (map Whole) (cells g)) (map Whole (cell_types g)) fs pd cd, p6)).
    { unfold reads, whole. erewrite then_some; [|apply line_reads; intro K; vm_compute in K; intuition discriminate]. erewrite then_some; [|apply check_ok, same_refl].
      erewrite then_some; [|apply line_reads, Vh]. erewrite then_some; [|apply (word_reads [] (format_name b)); [constructor|apply wordb_ok; destruct b; reflexivity|apply okt_nl]].
      replace (formats (format_name b)) with (Some b) by (destruct b; reflexivity).
      unfold restc. step (keyword_reads nl "DATASET"). step (keyword_reads sp "UNSTRUCTURED_GRID"). step (keyword_reads nl "POINTS"). step (count_reads sp).
      assert (K : Real Float <> Integer UChar) by discriminate. step (type_reads sp). next E1.
      unfold restb. step (keyword_reads p1 "CELLS"). step (count_reads sp). step (count_reads sp). rewrite cell_list_size_flat. next E2. rewrite split_cells_flat.
      unfold resta. step (keyword_reads p2 "CELL_TYPES"). step (count_reads sp). erewrite then_some; [|apply check_ok, Nat.eqb_eq, Vt]. next E3.
      unfold rest1. step (keyword_reads p3 "FIELD"). erewrite then_some; [|apply (word_reads sp (str "FieldData")); [exact blank_sp|apply wordb_ok; reflexivity|reflexivity]]. step (count_reads sp). next E4.
      unfold rest2. step (keyword_reads p4 "POINT_DATA"). step (count_reads sp). erewrite then_some; [|apply check_ok, Nat.eqb_refl]. next E5.
      unfold rest3. step (keyword_reads p5 "CELL_DATA"). step (count_reads sp). erewrite then_some; [|apply check_ok, Nat.eqb_refl]. next E6. reflexivity. }
    rewrite R, skip_all by exact B6. reflexivity.
  - unfold reproduces. cbn [title c_format c_points c_cells c_types c_fields c_point_data c_cell_data]. fold b g. repeat (split; [first [reflexivity|assumption]|]). assumption.
Qed.
Lemma written : forall f old, valid f -> good f -> exists s c, WriteToFile f old = (Ok tt, s) /\ read_file s = Some c /\ reproduces f c.
Proof.
  intros f old V G. destruct (file_reads f V G) as (s & c & E & R & A). exists s, c. split; [|split; assumption]. unfold WriteToFile.
  destruct (valid_iff f) as [[_ K] _]. rewrite (K V), E. reflexivity.
Qed.
Lemma rejected : forall f old, ~ valid f -> WriteToFile f old = (Throw, []).
Proof. intros f old V. unfold WriteToFile. destruct (valid_iff f) as [_ K]. rewrite (K V). reflexivity. Qed.
Lemma reject_iff : forall f old, good f -> (fst (WriteToFile f old) = Ok tt <-> valid f) /\ (fst (WriteToFile f old) = Throw <-> ~ valid f).
Proof.
  intros f old G. destruct (valid_iff f) as [[I1 I2] I3]. split; split; intro H.
  - unfold WriteToFile in H. destruct (ValidateVtkFile f) as [[]| |] eqn:E; cbn in H; try discriminate. apply I1. reflexivity.
  - destruct (written f old H G) as (s & c & E & _). rewrite E. reflexivity.
  - intro V. destruct (written f old V G) as (s & c & E & _). rewrite E in H. discriminate H.
  - rewrite rejected by exact H. reflexivity.
Qed.
