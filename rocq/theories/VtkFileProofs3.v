(** The sections of a file are read back. *)
From Coq Require Import String Ascii List Arith NArith ZArith QArith Qabs Bool Lia.
Import ListNotations.
From Verif Require Import Base MshModel MshSpec MshProofs WriteModel WriteSpec WriteProofs VtkFileModel VtkFileSpec VtkFileProofs VtkFileProofs2.
Local Open Scope list_scope.
Local Open Scope nat_scope.

(** *** Vectors *)
Definition flat3 {A} (ps : list (A * A * A)) : list A := flat_map (xs (fun a => [a])) ps.
Lemma flat3_length : forall A (ps : list (A * A * A)), length (flat3 ps) = 3 * length ps.
Proof. intros A ps. induction ps as [|[[x y] z] ps IH]; [reflexivity|]. unfold flat3 in *. cbn [flat_map xs app length]. rewrite IH. lia. Qed.
Lemma flat3_in_type : forall b k ps, Forall (in_type3 b k) ps -> Forall (in_type b k) (flat3 ps).
Proof.
  intros b k ps H. induction H as [|[[x y] z] ps (Hx & Hy & Hz) Hps IH]; [constructor|]. unfold flat3 in *. cbn [flat_map xs app].
  repeat (constructor; [assumption|]). exact IH.
Qed.
Lemma triples_flat3 : forall b k ps is, Forall2 (agrees b k) (flat3 ps) is -> exists ts, triples is = Some ts /\ Forall2 (agree3 b k) ps ts.
Proof.
  intros b k ps. induction ps as [|[[x y] z] ps IH]; intros is H.
  - inversion H; subst. exists []. split; [reflexivity|constructor].
  - unfold flat3 in *. cbn [flat_map xs app] in H. inversion H as [|? i1 ? l1 A1 H1]; subst. inversion H1 as [|? i2 ? l2 A2 H2]; subst. inversion H2 as [|? i3 ? l3 A3 H3]; subst.
    destruct (IH _ H3) as (ts & E & F). exists ((i1, i2, i3) :: ts). cbn [triples]. rewrite E. split; [reflexivity|]. constructor; [|exact F]. split; [exact A1|]. split; [exact A2|exact A3].
Qed.
Lemma vectors_read : forall b k ps s r, Forall (in_type3 b k) ps -> layout b k (flat3 ps) s ->
  exists ts p, vectors b k (length ps) (nl ++ s ++ r) = Some (ts, p ++ r) /\ blank p /\ Forall2 (agree3 b k) ps ts.
Proof.
  intros b k ps s r H L. destruct (array_reads b k (flat3 ps) s r (flat3_in_type b k ps H) L) as (is & p & E & Hp & A).
  destruct (triples_flat3 b k ps is A) as (ts & Et & F). exists ts, p. split; [|split; assumption].
  unfold vectors. rewrite flat3_length in E. rewrite (then_some _ _ _ _ _ _ _ E), Et. reflexivity.
Qed.
Lemma vector_layout : forall b r ps, Forall (in_type3 b (Real r)) ps ->
  layout b (Real r) (flat3 ps)
    (match b with
     | BINARY => flat_map (xs (number_bytes (Real r))) ps ++ nl
     | ASCII => flat_map (fun '(x, y, z) => number_text (Real r) x ++ sp ++ number_text (Real r) y ++ sp ++ number_text (Real r) z ++ nl) ps
     end).
Proof.
  intros [|] r ps H; cbn [layout].
  - eexists _, []. split; [rewrite app_nil_r; reflexivity|]. split; [|constructor]. unfold flat3.
    assert (E : map (number_text (Real r)) (flat_map (xs (fun a : Z => [a])) ps) = flat_map (xs (fun a => [number_text (Real r) a])) ps).
    { clear H. induction ps as [|[[x y] z] ps IH]; [reflexivity|]. cbn [flat_map xs app map]. rewrite IH. reflexivity. }
    rewrite E. apply spaced_flat. intros [[x y] z] Hin. rewrite Forall_forall in H. destruct (H _ Hin) as (Hx & Hy & Hz). cbn [fst snd] in Hx, Hy, Hz. cbn [xs app].
    constructor; [apply number_word, Hx|discriminate|apply blank_sp|]. constructor; [apply number_word, Hy|discriminate|apply blank_sp|].
    apply spaced_one; [apply number_word, Hz|discriminate|apply blank_nl].
  - exists nl. split; [|apply blank_nl]. f_equal. unfold flat3. clear H. induction ps as [|[[x y] z] ps IH]; [reflexivity|]. cbn [flat_map xs app]. rewrite IH, <- !app_assoc. reflexivity.
Qed.

(** *** Cells *)
Definition flat_cells (cs : list (list Z)) : list Z := flat_map (fun c => Z.of_nat (length c) :: c) cs.
Lemma cell_list_size_flat : forall cs, cell_list_size cs = length (flat_cells cs).
Proof.
  intro cs. unfold cell_list_size. assert (K : forall cs n, fold_left (fun result (v : list Z) => result + length v) cs n + length cs = n + length (flat_cells cs)).
  { clear. induction cs as [|c cs IH]; intro n; cbn [fold_left]; unfold flat_cells in *; cbn [flat_map length app]; [lia|]. rewrite app_length. specialize (IH (n + length c)). lia. }
  specialize (K cs (length cs)). lia.
Qed.
Lemma show_Z_nat : forall n, show_Z (Z.of_nat n) = show n.
Proof. intro n. unfold show_Z. destruct (Z.ltb_spec (Z.of_nat n) 0); [lia|]. replace (Z.abs_N (Z.of_nat n)) with (N.of_nat n) by lia. reflexivity. Qed.
Lemma all_cells_layout : forall b cs s, Forall (good_cell b) cs -> all_cells b cs = Ok s -> layout b (Integer Int) (flat_cells cs) (s ++ nl).
Proof.
  intros b cs s H E.
  assert (K : exists t, s = t /\ match b with ASCII => spaced (map (number_text (Integer Int)) (flat_cells cs)) t | BINARY => t = flat_map (number_bytes (Integer Int)) (flat_cells cs) end).
  { exists s. split; [reflexivity|]. revert s E. induction H as [|c cs (Hl & Hc & Hne) Hcs IH]; intros s E; cbn [all_cells] in E.
    - injection E as <-. destruct b; [constructor|reflexivity].
    - unfold flat_cells in *. cbn [flat_map]. destruct b; cbn [cells_vector] in E.
      + destruct (separated sp (map (number_text (Integer UInt)) c)) as [t|] eqn:Es; cbn [bind] in E; [|discriminate].
        destruct (all_cells ASCII cs) as [u| |]; cbn [bind] in E; [|discriminate|discriminate]. injection E as <-.
        rewrite map_app. apply spaced_app; [|apply IH; reflexivity]. cbn [map number_text]. rewrite show_Z_nat. 
        apply (spaced_cons _ sp _ (t ++ nl)); [rewrite <- show_Z_nat; apply show_Z_word|discriminate|apply blank_sp|].
        apply (spaced_separated sp nl); [discriminate|apply blank_sp|discriminate|apply blank_nl| |exact Es].
        apply Forall_forall. intros w Hw. apply in_map_iff in Hw. destruct Hw as (z & <- & _). apply show_Z_word.
      + destruct (all_cells BINARY cs) as [u| |]; cbn [bind] in E; [|discriminate|discriminate]. injection E as <-.
        rewrite flat_map_app. cbn [flat_map]. rewrite (IH u eq_refl), <- !app_assoc. reflexivity. }
  destruct K as (t & -> & K). destruct b; cbn [layout].
  - exists t, nl. split; [reflexivity|]. split; [exact K|apply blank_nl].
  - exists nl. rewrite K. split; [reflexivity|apply blank_nl].
Qed.
Lemma flat_cells_in_type : forall b cs, Forall (good_cell b) cs -> Forall (in_type b (Integer Int)) (flat_cells cs).
Proof.
  intros b cs H. induction H as [|c cs (Hl & Hc & _) Hcs IH]; unfold flat_cells in *; cbn [flat_map]; [constructor|]. apply Forall_app. split; [|exact IH].
  change (2 ^ 31)%Z with 2147483648%Z in *. constructor.
  - cbn [in_type signed bits]. change (2 ^ (32 - 1))%Z with 2147483648%Z. lia.
  - eapply Forall_impl; [|exact Hc]. intros v Hv. cbn [in_type signed bits]. change (2 ^ (32 - 1))%Z with 2147483648%Z. cbv beta in Hv. lia.
Qed.
Lemma agrees_whole : forall b i zs is, Forall2 (agrees b (Integer i)) zs is -> is = map Whole zs.
Proof. intros b i zs is H. induction H as [|z x zs is A H IH]; [reflexivity|]. cbn in A. cbn [map]. rewrite A, IH. reflexivity. Qed.
Lemma split_cells_flat : forall cs, split_cells (length cs) (map Whole (flat_cells cs)) = Some (map (map Whole) cs).
Proof.
  induction cs as [|c cs IH]; [reflexivity|]. unfold flat_cells in *. cbn [flat_map length map split_cells app]. rewrite Nat2Z.id, map_app.
  destruct (Nat.leb_spec (length c) (length (map Whole c ++ map Whole (flat_map (fun c0 => Z.of_nat (length c0) :: c0) cs)))) as [K|K]; [|rewrite app_length, map_length in K; lia].
  destruct (Z.leb_spec 0 (Z.of_nat (length c))) as [K'|K']; [|lia]. cbn [andb].
  rewrite firstn_app, skipn_app, map_length, Nat.sub_diag. cbn [firstn skipn]. rewrite app_nil_r, firstn_all2, skipn_all2 by (rewrite map_length; lia). cbn [app].
  rewrite IH. reflexivity.
Qed.
Lemma types_layout : forall b ts, layout b (Integer Int) ts (flat_map (cell_type b) ts ++ nl).
Proof.
  intros [|] ts; cbn [layout].
  - exists (flat_map (cell_type ASCII) ts), nl. split; [reflexivity|]. split; [|apply blank_nl].
    replace (map (number_text (Integer Int)) ts) with (flat_map (fun z => [number_text (Integer Int) z]) ts) by (induction ts as [|z ts IH]; [reflexivity|]; cbn [flat_map map app]; rewrite IH; reflexivity).
    apply spaced_flat. intros z _. apply spaced_one; [apply show_Z_word|discriminate|apply blank_nl].
  - exists nl. split; [reflexivity|apply blank_nl].
Qed.

(** *** Data *)
Lemma numbers_words : forall k zs, Forall (in_type ASCII k) zs -> Forall is_word (map (number_text k) zs).
Proof. intros k zs H. apply Forall_forall. intros w Hw. apply in_map_iff in Hw. destruct Hw as (z & <- & Hz). rewrite Forall_forall in H. apply number_word, H, Hz. Qed.
Lemma separated_some : forall sep l, l <> [] -> exists t, separated sep l = Some t.
Proof.
  intros sep l. induction l as [|w l IH]; intro H; [congruence|]. cbn [separated]. destruct l as [|w' l]; [eexists; reflexivity|].
  destruct IH as [t ->]; [discriminate|]. eexists. reflexivity.
Qed.
Lemma okt_nl : forall r, okt (nl ++ r).
Proof. intro r. reflexivity. Qed.
Lemma okt_sp : forall r, okt (sp ++ r).
Proof. intro r. reflexivity. Qed.
Lemma blank_nil : blank [].
Proof. constructor. Qed.
Lemma name_type : forall name k r, name ++ type_name k ++ r = name ++ sp ++ type_word k ++ r.
Proof. intros name k r. destruct k as [[]|[]]; reflexivity. Qed.
Ltac seen := first [assumption | reflexivity | exact blank_nl | exact blank_sp | exact blank_nil].
(** One reading step. *)
Ltac step L := erewrite then_some; [|apply L; seen].
Ltac step0 L := erewrite then_some; [|apply (L []); seen].

Definition field_parts (a : field) : kind * chars * list Z :=
  match a with IntArray name data => (Integer Int, name, data) | RealArray r name data => (Real r, name, data) end.
Definition field_numbers (b : format) (k : kind) (data : list Z) : option chars :=
  match b with BINARY => Some (flat_map (number_bytes k) data) | ASCII => separated sp (map (number_text k) data) end.
Lemma field_array_parts : forall b a, field_array b a =
  let '(k, name, data) := field_parts a in
  option_map (fun t => name ++ sp ++ str "1" ++ sp ++ show (length data) ++ sp ++ type_word k ++ nl ++ t ++ nl)
    (field_numbers b k data).
Proof. intros b [name data|[|] name data]; reflexivity. Qed.
Lemma field_reads : forall b a p r, good_field b a -> blank p ->
  exists t c p', field_array b a = Some t /\ field_ b (p ++ t ++ r) = Some (c, p' ++ r) /\ blank p' /\ same_field b a c.
Proof.
  intros b a p r H Hp.
  assert (G : is_word (snd (fst (field_parts a))) /\ Forall (in_type b (fst (fst (field_parts a)))) (snd (field_parts a)) /\ (b = ASCII -> snd (field_parts a) <> []) /\ fst (fst (field_parts a)) <> Integer UChar).
  { destruct a as [name l|q name l]; cbn [field_parts fst snd]; destruct H as (H1 & H2 & H3); repeat split; try assumption; try apply H1; try discriminate. }
  assert (Q : forall c, fst c = (snd (fst (field_parts a)), fst (fst (field_parts a))) -> Forall2 (agrees b (fst (fst (field_parts a)))) (snd (field_parts a)) (snd c) -> same_field b a c).
  { intros c. destruct a as [name l|q name l]; cbn [field_parts fst snd same_field]; intros; split; assumption. }
  rewrite field_array_parts. destruct (field_parts a) as [[k name] data]. cbn [fst snd] in G, Q. destruct G as (Hn & Hd & Hne & Hk).
  assert (T : exists t0, field_numbers b k data = Some t0 /\ layout b k data (t0 ++ nl)).
  { unfold field_numbers. destruct b; cbn [layout].
    - destruct (separated_some sp (map (number_text k) data)) as [t0 E]; [specialize (Hne eq_refl); destruct data; [congruence|discriminate]|].
      exists t0. split; [exact E|]. exists (t0 ++ nl), []. rewrite app_nil_r. split; [reflexivity|]. split; [|constructor].
      apply (spaced_separated sp nl); [discriminate|apply blank_sp|discriminate|apply blank_nl|apply numbers_words, Hd|exact E].
    - eexists. split; [reflexivity|]. exists nl. split; [reflexivity|apply blank_nl]. }
  destruct T as (t0 & -> & L). cbn [option_map]. destruct (array_reads b k data (t0 ++ nl) r Hd L) as (is & p' & E & Hp' & A).
  exists (name ++ sp ++ str "1" ++ sp ++ show (length data) ++ sp ++ type_word k ++ nl ++ t0 ++ nl), (name, k, is), p'. split; [reflexivity|]. split; [|split; [exact Hp'|apply Q; [reflexivity|exact A]]].
  rewrite <- !app_assoc. rewrite <- app_assoc in E. unfold field_. step (word_reads p name). step (keyword_reads sp "1"). step (count_reads sp). step (type_reads sp). rewrite (then_some _ _ _ _ _ _ _ E). reflexivity.
Qed.
Lemma fields_read : forall b fs, Forall (good_field b) fs -> forall p r, blank p ->
  exists cs p', times (length fs) (field_ b) (p ++ flat_map (fun a => match field_array b a with Some t => t | None => [] end) fs ++ r) = Some (cs, p' ++ r) /\ blank p' /\ Forall2 (same_field b) fs cs.
Proof.
  intros b fs H. induction H as [|a fs Ha Hfs IH]; intros p r Hp; cbn [length times flat_map].
  - exists [], p. split; [reflexivity|]. split; [exact Hp|constructor].
  - rewrite <- app_assoc.
    destruct (field_reads b a p (flat_map (fun a => match field_array b a with Some t => t | None => [] end) fs ++ r) Ha Hp) as (t & c & p1 & -> & E1 & Hp1 & S1).
    destruct (IH p1 r Hp1) as (cs & p2 & E2 & Hp2 & S2). rewrite (then_some _ _ _ _ _ _ _ E1), (then_some _ _ _ _ _ _ _ E2).
    exists (c :: cs), p2. split; [reflexivity|]. split; [exact Hp2|]. constructor; assumption.
Qed.
Definition keyword_of (a : attribute) : chars := match a with ScalarData _ _ _ _ => str "SCALARS" | VectorData _ _ _ => str "VECTORS" end.
Lemma attribute_starts : forall b a, exists t, attribute_text b a = keyword_of a ++ sp ++ t.
Proof. intros b [k name table l|q name l]; eexists; reflexivity. Qed.
Lemma data_reads : forall b a n p r, good_data b a -> data_size a = n -> blank p ->
  exists d p', data_ b n (p ++ attribute_text b a ++ r) = Some (d, p' ++ r) /\ blank p' /\ same_data b a d.
Proof.
  intros b [k name table l|q name l] n p r H Hs Hp; cbn [data_size] in Hs; subst n; cbn [attribute_text].
  - destruct H as (Hk & Hn & Ht & Hd).
    assert (L : layout b k l (match b with BINARY => flat_map (number_bytes k) l | ASCII => any_separated nl (map (number_text k) l) end ++ nl)).
    { destruct b; cbn [layout]; [|exists nl; split; [reflexivity|apply blank_nl]]. unfold any_separated. destruct (separated nl (map (number_text k) l)) as [t|] eqn:E.
      - exists (t ++ nl), []. rewrite app_nil_r. split; [reflexivity|]. split; [|constructor].
        apply (spaced_separated nl nl); [discriminate|apply blank_nl|discriminate|apply blank_nl|apply numbers_words, Hd|exact E].
      - exists [], nl. split; [reflexivity|]. split; [|apply blank_nl]. destruct l as [|z l]; [constructor|]. destruct (separated_some nl (map (number_text k) (z :: l))) as [t E']; [discriminate|congruence]. }
    destruct (array_reads b k l _ r Hd L) as (is & p' & E & Hp' & A). exists (Scalars name k table is), p'. split; [|split; [exact Hp'|]].
    + change (str "SCALARS ") with (str "SCALARS" ++ sp). change (str " 1") with (sp ++ str "1"). change (str "LOOKUP_TABLE ") with (str "LOOKUP_TABLE" ++ sp).
      rewrite <- !app_assoc. rewrite name_type. rewrite <- !app_assoc in E.
      unfold data_. rewrite (word_reads p (str "SCALARS")) by (try apply wordb_ok; seen). rewrite same_refl.
      step (word_reads sp name). step (type_reads sp). step (keyword_reads sp "1"). step (keyword_reads nl "LOOKUP_TABLE"). step (word_reads sp table). rewrite (then_some _ _ _ _ _ _ _ E). reflexivity.
    + cbn [same_data]. split; [reflexivity|]. split; [reflexivity|]. split; [reflexivity|exact A].
  - destruct H as (Hn & Hd). pose proof (vector_layout b q l Hd) as L. destruct (vectors_read b (Real q) l _ r Hd L) as (ts & p' & E & Hp' & A).
    exists (Vectors name (Real q) ts), p'. split; [|split; [exact Hp'|]].
    + change (str "VECTORS ") with (str "VECTORS" ++ sp). rewrite <- !app_assoc. rewrite name_type.
      unfold data_. rewrite (word_reads p (str "VECTORS")) by (try apply wordb_ok; seen). rewrite same_refl. change (same (str "VECTORS") (str "SCALARS")) with false. cbv iota.
      step (word_reads sp name). assert (K : Real q <> Integer UChar) by discriminate. step (type_reads sp). rewrite (then_some _ _ _ _ _ _ _ E). reflexivity.
    + cbn [same_data]. split; [reflexivity|]. split; [reflexivity|exact A].
Qed.
(** What follows is not another array. *)
Definition no_data (r : chars) : Prop := forall p, blank p -> match VtkFileSpec.word (p ++ r) with Some (w, _) => same w (str "SCALARS") || same w (str "VECTORS") = false | None => True end.
Lemma datas_read_ : forall b n l, Forall (good_data b) l -> Forall (fun a => data_size a = n) l -> forall fuel p r, length l < fuel -> blank p -> no_data r ->
  exists ds p', datas_ fuel b n (p ++ flat_map (attribute_text b) l ++ r) = Some (ds, p' ++ r) /\ blank p' /\ Forall2 (same_data b) l ds.
Proof.
  intros b n l H. induction H as [|a l Ha Hl IH]; intros Hs fuel p r Hf Hp Hr; (destruct fuel as [|fuel]; [cbn in Hf; lia|]); cbn [datas_ flat_map app].
  - specialize (Hr p Hp) as K. destruct (VtkFileSpec.word (p ++ r)) as [[w r']|]; [rewrite K|]; (exists [], p; split; [reflexivity|]; split; [exact Hp|constructor]).
  - inversion Hs as [|? ? Hsa Hsl]; subst. rewrite <- app_assoc.
    assert (W : exists q, VtkFileSpec.word (p ++ attribute_text b a ++ flat_map (attribute_text b) l ++ r) = Some (keyword_of a, q)).
    { destruct (attribute_starts b a) as [t ->]. rewrite <- !app_assoc. eexists. apply word_reads; [exact Hp|apply wordb_ok; destruct a; reflexivity|apply okt_sp]. }
    destruct W as [q ->]. replace (same (keyword_of a) (str "SCALARS") || same (keyword_of a) (str "VECTORS")) with true by (destruct a; reflexivity).
    destruct (data_reads b a (data_size a) p (flat_map (attribute_text b) l ++ r) Ha eq_refl Hp) as (d & p1 & E1 & Hp1 & S1).
    destruct (IH Hsl fuel p1 r) as (ds & p2 & E2 & Hp2 & S2); [cbn [length] in Hf; lia|exact Hp1|exact Hr|].
    rewrite (then_some _ _ _ _ _ _ _ E1), (then_some _ _ _ _ _ _ _ E2). exists (d :: ds), p2. split; [reflexivity|]. split; [exact Hp2|]. constructor; assumption.
Qed.
Lemma datas_read : forall b n l p r, Forall (good_data b) l -> Forall (fun a => data_size a = n) l -> blank p -> no_data r ->
  exists ds p', datas b n (p ++ flat_map (attribute_text b) l ++ r) = Some (ds, p' ++ r) /\ blank p' /\ Forall2 (same_data b) l ds.
Proof.
  intros b n l p r H Hs Hp Hr. unfold datas. apply datas_read_; try assumption. rewrite !app_length.
  assert (length l <= length (flat_map (attribute_text b) l)); [|lia]. clear. induction l as [|a l IH]; cbn [length flat_map]; [lia|]. rewrite app_length.
  destruct (attribute_starts b a) as [t ->]. rewrite !app_length. cbn [sp str list_ascii_of_string length]. lia.
Qed.
