From Coq Require Import List Arith Lia Bool FinFun.
Import ListNotations.
From Verif Require Import Base MeshModel MeshView DofModel FlagModel FlagSpec.

Lemma each_cons : forall {A S} (x : A) l (body : A -> S -> res S) s,
  each (x :: l) body s = (do s' <- body x s; each l body s').
Proof.
  intros. unfold each; cbn [fold_left bind]. destruct (body x s) as [s'| |]; auto.
  - cbn [bind]. induction l; cbn [fold_left bind]; auto.
  - cbn [bind]. induction l; cbn [fold_left bind]; auto.
Qed.

Lemma each_inv : forall {A S} (I : list A -> S -> Prop) (body : A -> S -> res S) l s,
  I [] s ->
  (forall done x s, In x l -> I done s -> exists s', body x s = Ok s' /\ I (done ++ [x]) s') ->
  exists s', each l body s = Ok s' /\ I l s'.
Proof.
  intros A S I body l s H0 Hs.
  assert (G : forall r done s, (forall x, In x r -> In x l) -> I done s ->
    exists s', each r body s = Ok s' /\ I (done ++ r) s').
  { induction r as [|x r IH]; intros done s1 Hr Hd.
    - exists s1. rewrite app_nil_r. split; auto.
    - destruct (Hs done x s1 (Hr x (or_introl eq_refl)) Hd) as (s2 & E & I2).
      destruct (IH (done ++ [x]) s2 (fun y Hy => Hr y (or_intror Hy)) I2) as (s3 & E3 & I3).
      exists s3. rewrite each_cons, E. split; auto. rewrite <- app_assoc in I3. exact I3. }
  exact (G l [] s (fun x H => H) H0).
Qed.

(** *** Sub-entities *)
Definition parts (m : mesh) (cd rel i : nat) : list nat :=
  match cd, rel with
  | 0, 1 => cv_edges (cell_at m i)
  | 0, 2 => cv_nodes (cell_at m i)
  | 1, 1 => [fst (edge_at m i); snd (edge_at m i)]
  | _, _ => [i]
  end.

Lemma sub_parts : forall m cd rel i, cd + rel <= 2 -> sub_entities m cd i rel = Ok (parts m cd rel i).
Proof. intros m [|[|[|]]] [|[|[|]]] i H; try lia; reflexivity. Qed.

Lemma parts_range : forall m cd rel i s, wf_mesh m -> cd + rel <= 2 -> i < mv_count m cd ->
  In s (parts m cd rel i) -> s < mv_count m (cd + rel).
Proof.
  intros m cd rel i s W H Hi Hs.
  assert (CW : cd = 0 -> wf_cell m (cell_at m i)).
  { intros ->. pose proof (wm_cells _ W) as F. rewrite Forall_forall in F. apply F.
    unfold cell_at. apply nth_In. exact Hi. }
  assert (EW : cd = 1 -> fst (edge_at m i) < mv_nodes m /\ snd (edge_at m i) < mv_nodes m).
  { intros ->. unfold edge_at. destruct (nth i (mv_edges m) (0, 0)) as [a b] eqn:E.
    assert (N : nth_error (mv_edges m) i = Some (a, b)).
    { rewrite <- E. apply nth_error_nth'. exact Hi. }
    pose proof (wm_edges _ W _ _ _ N). simpl. tauto. }
  destruct cd as [|[|[|]]], rel as [|[|[|]]]; try lia; cbn [parts Nat.add] in *;
    try (destruct Hs as [<-|[]]; exact Hi).
  - destruct (CW eq_refl) as [Sh L O N Lo]. destruct (In_nth_error _ _ Hs) as (k & K).
    assert (HK : k < length (cv_nodes (cell_at m i))).
    { rewrite <- L. apply nth_error_Some. congruence. }
    destruct (Lo k HK) as (e & o & p0 & p1 & E1 & _ & E3 & _).
    assert (e = s) by congruence. subst e.
    change (s < length (mv_edges m)). apply nth_error_Some. congruence.
  - destruct (CW eq_refl) as [Sh L O N Lo]. rewrite Forall_forall in N. apply N, Hs.
  - destruct (EW eq_refl). destruct Hs as [<-|[<-|[]]]; assumption.
Qed.

Lemma part_parts : forall m cd e rel k s, cd + rel <= 2 -> e < mv_count m cd ->
  (part m cd e rel k s <-> nth_error (parts m cd rel e) k = Some s).
Proof.
  intros m cd e rel k s H He.
  assert (S0 : forall i, nth_error [i] k = Some s <-> k = 0 /\ s = i).
  { intros i. destruct k as [|[|k]]; simpl; split; intros X; try discriminate; try (destruct X; lia).
    - injection X as <-. auto.
    - destruct X as (_ & ->). reflexivity. }
  destruct cd as [|[|[|]]], rel as [|[|[|]]]; try lia; cbn [parts part];
    try (symmetry; apply S0).
  - assert (N : nth_error (mv_cells m) e = Some (cell_at m e)) by (apply nth_error_nth'; exact He).
    split; [intros (c & E & K); assert (c = cell_at m e) by congruence; subst c; exact K|].
    intros K. exists (cell_at m e). split; auto.
  - assert (N : nth_error (mv_cells m) e = Some (cell_at m e)) by (apply nth_error_nth'; exact He).
    split; [intros (c & E & K); assert (c = cell_at m e) by congruence; subst c; exact K|].
    intros K. exists (cell_at m e). split; auto.
  - assert (N : nth_error (mv_edges m) e = Some (edge_at m e)) by (apply nth_error_nth'; exact He).
    destruct (edge_at m e) as [a b]. cbn [fst snd].
    split.
    + intros (a' & b' & E & K). assert (a' = a /\ b' = b) as (-> & ->) by (split; congruence).
      destruct K as [(-> & ->)|(-> & ->)]; reflexivity.
    + intros K. exists a, b. split; auto.
      destruct k as [|[|k]]; cbn [nth_error] in K.
      * injection K as <-. auto.
      * injection K as <-. auto.
      * destruct k; discriminate.
Qed.

(** *** Counting *)
Lemma hs_list : forall (l : list nat) i, has_size (fun k => nth_error l k = Some i) (count_occ Nat.eq_dec l i).
Proof.
  intros l i. induction l as [|x l (L & ND & Len & HL)].
  - exists []. split; [constructor|]. split; [reflexivity|]. intros k. split; [intros []|].
    destruct k; discriminate.
  - assert (NDS : NoDup (map S L)) by (apply Injective_map_NoDup; auto; intros a b; lia).
    assert (HS : forall k, In (S k) (map S L) <-> nth_error l k = Some i).
    { intros k. rewrite in_map_iff. rewrite <- HL. split.
      - intros (y & E & Y). injection E as <-. exact Y.
      - intros Y. exists k. auto. }
    assert (H0 : ~ In 0 (map S L)) by (rewrite in_map_iff; intros (y & E & _); lia).
    cbn [count_occ]. destruct (Nat.eq_dec x i) as [->|Ne].
    + exists (0 :: map S L). split; [constructor; auto|]. split; [simpl; rewrite map_length; lia|].
      intros [|k]; cbn [nth_error].
      * split; [auto|left; reflexivity].
      * rewrite <- HS. split; [intros [E|E]; [lia|exact E]|right; assumption].
    + exists (map S L). split; auto. split; [rewrite map_length; exact Len|].
      intros [|k]; cbn [nth_error].
      * split; [contradiction|congruence].
      * apply HS.
Qed.

Lemma hs_pairs : forall (p : nat -> list nat) i n,
  has_size (fun ek : nat * nat => fst ek < n /\ nth_error (p (fst ek)) (snd ek) = Some i)
    (count_occ Nat.eq_dec (flat_map p (seq 0 n)) i).
Proof.
  intros p i n. induction n as [|n (L & ND & Len & HL)].
  - exists []. split; [constructor|]. split; [reflexivity|]. intros [e k]. simpl. split; [intros []|intros []; lia].
  - destruct (hs_list (p n) i) as (K & NK & LK & HK).
    exists (L ++ map (pair n) K). rewrite seq_S, flat_map_app, count_occ_app. cbn [Nat.add flat_map].
    rewrite app_nil_r. split; [|split].
    + clear Len LK. revert HL ND.
      induction L as [|x L IH] using rev_ind; [|clear IH].
      * intros _ _. simpl. apply Injective_map_NoDup; auto. intros a b E. injection E. auto.
      * intros HL ND. assert (G : forall L1 L2 : list (nat * nat), NoDup L1 -> NoDup L2 ->
          (forall x, In x L1 -> ~ In x L2) -> NoDup (L1 ++ L2)).
        { induction L1 as [|y L1 IH]; intros L2 N1 N2 D; [exact N2|].
          inversion N1; subst. simpl. constructor.
          - rewrite in_app_iff. intros [Y|Y]; [contradiction|]. exact (D y (or_introl eq_refl) Y).
          - apply IH; auto. intros z Hz. apply D. right; exact Hz. }
        apply G; [exact ND| |].
        -- apply Injective_map_NoDup; auto. intros a b E. injection E. auto.
        -- intros [e k] H1 H2. apply HL in H1. apply in_map_iff in H2. destruct H2 as (y & E & _).
           injection E as <- <-. simpl in H1. lia.
    + rewrite app_length, map_length, Len, LK. reflexivity.
    + intros [e k]. rewrite in_app_iff, HL, in_map_iff. cbn [fst snd]. split.
      * intros [(A & B)|(y & E & Y)]; [split; [lia|exact B]|]. injection E as <- <-.
        split; [lia|]. apply HK. exact Y.
      * intros (A & B). destruct (Nat.eq_dec e n) as [->|]; [right|left; split; [lia|exact B]].
        exists k. split; auto. apply HK, B.
Qed.

Lemma has_size_ext : forall A (P Q : A -> Prop) n, (forall x, P x <-> Q x) -> has_size P n -> has_size Q n.
Proof.
  intros A P Q n E (l & N & L & H). exists l. split; [|split]; auto. intros x. rewrite H. apply E.
Qed.

Lemma has_size_unique : forall A (P : A -> Prop) n k, has_size P n -> has_size P k -> n = k.
Proof.
  intros A P n k (l & N & L & H) (l' & N' & L' & H').
  assert (incl l l') by (intros x Hx; apply H', H, Hx).
  assert (incl l' l) by (intros x Hx; apply H, H', Hx).
  pose proof (NoDup_incl_length N H0). pose proof (NoDup_incl_length N' H1). lia.
Qed.

(** *** The loops *)
Lemma dget_ok : forall A (d : dset A) cd i x, d_codim d = cd -> i < length (d_data d) ->
  dget d cd i = Ok (nth i (d_data d) x).
Proof.
  intros A d cd i x E H. unfold dget. rewrite E, Nat.eqb_refl. cbn [lf_assert bind].
  rewrite (nth_error_nth' _ x H). reflexivity.
Qed.

Definition counted (cd n : nat) (f : nat -> nat) (d : dset nat) : Prop :=
  d_codim d = cd /\ length (d_data d) = n /\ forall i, i < n -> nth i (d_data d) 0 = f i.

Lemma count_inner : forall cd n f subs d, counted cd n f d -> (forall s, In s subs -> s < n) ->
  exists d', each subs (fun s d => dset_at d cd s (fun n => n + 1)) d = Ok d' /\
    counted cd n (fun i => f i + count_occ Nat.eq_dec subs i) d'.
Proof.
  intros cd n f subs d C R.
  apply (each_inv (fun done d => counted cd n (fun i => f i + count_occ Nat.eq_dec done i) d)).
  - destruct C as (A & B & D). split; [|split]; auto. intros i Hi. rewrite (D i Hi). simpl. lia.
  - intros done s d1 Hs (A & B & D). specialize (R s Hs).
    unfold dset_at. rewrite (dget_ok _ d1 cd s 0 A) by (rewrite B; exact R). cbn [bind].
    eexists. split; [reflexivity|]. unfold counted; cbn [d_codim d_data].
    split; [exact A|]. split; [rewrite upd_length; exact B|].
    intros i Hi. rewrite count_occ_app. cbn [count_occ].
    destruct (Nat.eq_dec s i) as [->|Ne].
    + rewrite nth_upd_eq by lia. rewrite (D i Hi). lia.
    + rewrite nth_upd_neq by auto. rewrite (D i Hi). lia.
Qed.

Lemma nth_repeat_same : forall A (x : A) n i, nth i (repeat x n) x = x.
Proof. induction n; destruct i; simpl; auto. Qed.

Lemma count_super_ok : forall m cs cp, wf_mesh m -> cs <= 2 -> cp <= cs ->
  exists d, count_super m cs cp = Ok d /\
    counted cs (mv_count m cs)
      (fun i => count_occ Nat.eq_dec (flat_map (parts m (cs - cp) cp) (seq 0 (mv_count m (cs - cp)))) i) d.
Proof.
  intros m cs cp W H1 H2. unfold count_super.
  rewrite (proj2 (Nat.leb_le cs 2) H1), (proj2 (Nat.leb_le cp cs) H2). cbn [verify bind].
  apply (each_inv (fun done d => counted cs (mv_count m cs)
           (fun i => count_occ Nat.eq_dec (flat_map (parts m (cs - cp) cp) done) i) d)).
  - split; [reflexivity|]. split; [apply repeat_length|]. intros i Hi.
    unfold new_dset; cbn [d_data]. apply nth_repeat_same.
  - intros done e d He C. apply in_seq in He.
    rewrite sub_parts by lia. cbn [bind].
    destruct (count_inner _ _ _ (parts m (cs - cp) cp e) d C) as (d' & E & C').
    { intros s Hs. replace cs with (cs - cp + cp) at 1 by lia.
      apply (parts_range m (cs - cp) cp e); auto; lia. }
    exists d'. split; [exact E|]. destruct C' as (A & B & D). split; [|split]; auto.
    intros i Hi. rewrite (D i Hi), flat_map_app, count_occ_app. simpl. rewrite app_nil_r. reflexivity.
Qed.

Lemma size_count : forall m cd, cd <= 2 -> size m cd = mv_count m cd.
Proof. intros m [|[|[|]]] H; try lia; reflexivity. Qed.

Lemma count_super_correct : forall m cs cp, wf_mesh m ->
  (cs <= 2 -> cp <= cs -> exists d, count_super m cs cp = Ok d /\ d_codim d = cs /\
     length (d_data d) = size m cs /\
     forall s n, nth_error (d_data d) s = Some n ->
       has_size (fun ek => fst ek < size m (cs - cp) /\ part m (cs - cp) (fst ek) cp (snd ek) s) n) /\
  (2 < cs \/ cs < cp -> count_super m cs cp = Throw).
Proof.
  intros m cs cp W. split.
  - intros H1 H2. destruct (count_super_ok m cs cp W H1 H2) as (d & E & A & B & D).
    exists d. rewrite !size_count by lia. do 3 (split; auto). intros s n Hn.
    assert (Hs : s < mv_count m cs) by (rewrite <- B; apply nth_error_Some; congruence).
    rewrite (nth_error_nth' _ 0) in Hn by (rewrite B; exact Hs). injection Hn as <-.
    rewrite (D s Hs). eapply has_size_ext; [|apply hs_pairs].
    intros [e k]. cbn [fst snd]. split; intros (X & Y); (split; [exact X|]); apply part_parts; auto; lia.
  - intros H. unfold count_super. destruct (Nat.leb_spec cs 2); [|reflexivity].
    destruct (Nat.leb_spec cp cs); [|reflexivity]. lia.
Qed.

Definition bdry (m : mesh) (e : nat) : bool :=
  count_occ Nat.eq_dec (flat_map (fun i => cv_edges (cell_at m i)) (seq 0 (length (mv_cells m)))) e =? 1.

Lemma bdry_one : forall m e, bdry m e = true <-> one_cell_at m e.
Proof.
  intros m e. unfold bdry, one_cell_at.
  assert (G : has_size (fun ck => fst ck < size m 0 /\ part m 0 (fst ck) 1 (snd ck) e)
    (count_occ Nat.eq_dec (flat_map (fun i => cv_edges (cell_at m i)) (seq 0 (length (mv_cells m)))) e)).
  { eapply has_size_ext; [|apply (hs_pairs (fun i => cv_edges (cell_at m i)))].
    intros [c k]. cbn [fst snd]. change (size m 0) with (length (mv_cells m)).
    split; intros (X & Y); (split; [exact X|]); apply (part_parts m 0 c 1); auto; lia. }
  rewrite Nat.eqb_eq. split.
  - intros E. rewrite E in G. exact G.
  - intros H. exact (has_size_unique _ _ _ _ G H).
Qed.

Definition flagged (n : nat) (f : nat -> bool) (l : list bool) : Prop :=
  length l = n /\ forall i, i < n -> nth i l false = f i.

Lemma flag_inner : forall cd n f subs d, d_codim d = cd -> flagged n f (d_data d) ->
  (forall s, In s subs -> s < n) ->
  exists d', each subs (fun s d => dset_at d cd s (fun _ => true)) d = Ok d' /\
    d_codim d' = cd /\ flagged n (fun i => f i || existsb (Nat.eqb i) subs) (d_data d').
Proof.
  intros cd n f subs d C F R.
  apply (each_inv (fun done d => d_codim d = cd /\
    flagged n (fun i => f i || existsb (Nat.eqb i) done) (d_data d))).
  - split; auto. destruct F as (B & D). split; auto. intros i Hi. rewrite (D i Hi). simpl.
    rewrite orb_false_r. reflexivity.
  - intros done s d1 Hs (A & B & D). specialize (R s Hs).
    unfold dset_at. rewrite (dget_ok _ d1 cd s false A) by (rewrite B; exact R). cbn [bind].
    eexists. split; [reflexivity|]. cbn [d_codim d_data].
    split; [exact A|]. split; [rewrite upd_length; exact B|].
    intros i Hi. rewrite existsb_app. cbn [existsb]. rewrite orb_false_r, orb_assoc.
    destruct (Nat.eqb_spec i s) as [->|Ne].
    + rewrite nth_upd_eq by lia. rewrite orb_true_r. reflexivity.
    + rewrite nth_upd_neq by auto. rewrite (D i Hi). rewrite orb_false_r. reflexivity.
Qed.

Lemma flag_boundary_ok : forall m codim, wf_mesh m -> 0 < codim <= 2 ->
  exists d, flag_boundary m codim = Ok d /\ d_codim d = codim /\
    flagged (mv_count m codim)
      (fun i => existsb (fun e => bdry m e && existsb (Nat.eqb i) (parts m 1 (codim - 1) e))
                  (seq 0 (length (mv_edges m)))) (d_data d).
Proof.
  intros m codim W H. unfold flag_boundary.
  rewrite (proj2 (Nat.ltb_lt 0 codim)) by lia. rewrite (proj2 (Nat.leb_le codim 2)) by lia.
  cbn [andb lf_assert bind].
  destruct (count_super_ok m 1 1 W) as (cnt & -> & CA & CB & CD); [lia|lia|]. cbn [bind].
  change (mv_count m 1) with (length (mv_edges m)) in *.
  apply (each_inv (fun done d => d_codim d = codim /\ flagged (mv_count m codim)
      (fun i => existsb (fun e => bdry m e && existsb (Nat.eqb i) (parts m 1 (codim - 1) e)) done) (d_data d))).
  - split; [reflexivity|]. split; [apply repeat_length|]. intros i Hi. cbn [existsb].
    unfold new_dset; cbn [d_data]. apply nth_repeat_same.
  - intros done e d He (A & F). apply in_seq in He.
    rewrite (dget_ok _ cnt 1 e 0 CA) by lia. cbn [bind]. rewrite CD by lia.
    change (count_occ _ _ _ =? 1) with (bdry m e).
    destruct (bdry m e) eqn:Be.
    + rewrite sub_parts by lia. cbn [bind].
      destruct (flag_inner codim (mv_count m codim) _ (parts m 1 (codim - 1) e) d A F) as (d' & E & A' & L' & D').
      { intros s Hs. replace codim with (1 + (codim - 1)) by lia.
        apply (parts_range m 1 (codim - 1) e); auto; [lia|]. change (e < length (mv_edges m)). lia. }
      exists d'. split; [exact E|]. split; [exact A'|]. split; [exact L'|].
      intros i Hi. rewrite (D' i Hi), existsb_app. cbn [existsb]. rewrite Be, orb_false_r. reflexivity.
    + exists d. split; [reflexivity|]. split; [exact A|]. destruct F as (L & D). split; [exact L|].
      intros i Hi. rewrite (D i Hi), existsb_app. cbn [existsb]. rewrite Be. cbn [andb]. rewrite !orb_false_r.
      reflexivity.
Qed.

(** Entity [s] of co-dimension [1 + rel] is a part of a boundary edge. *)
Lemma flags_mean : forall m rel s, rel <= 1 ->
  existsb (fun e => bdry m e && existsb (Nat.eqb s) (parts m 1 rel e)) (seq 0 (length (mv_edges m))) = true
  <-> exists e k, e < size m 1 /\ one_cell_at m e /\ part m 1 e rel k s.
Proof.
  intros m rel s H. rewrite existsb_exists. split.
  - intros (e & He & B). apply in_seq in He. apply andb_prop in B. destruct B as (B & P).
    apply existsb_exists in P. destruct P as (s' & P & Es). apply Nat.eqb_eq in Es. subst s'.
    destruct (In_nth_error _ _ P) as (k & K). exists e, k.
    split; [simpl; lia|]. split; [apply bdry_one, B|]. apply part_parts; auto; [lia|].
    change (e < length (mv_edges m)). lia.
  - intros (e & k & He & B & P). cbn [size] in He. exists e. split; [apply in_seq; lia|].
    apply andb_true_intro. split; [apply bdry_one, B|]. apply existsb_exists. exists s.
    split; [|apply Nat.eqb_refl]. apply part_parts in P; [|lia|exact He].
    apply nth_error_In in P. exact P.
Qed.

Lemma flag_boundary_correct : forall m codim, wf_mesh m ->
  (0 < codim <= 2 -> exists d, flag_boundary m codim = Ok d /\ d_codim d = codim /\
     length (d_data d) = size m codim /\
     forall s b, nth_error (d_data d) s = Some b ->
       (b = true <-> exists e k, e < size m 1 /\ one_cell_at m e /\ part m 1 e (codim - 1) k s)) /\
  (codim = 0 \/ 2 < codim -> flag_boundary m codim = Assert).
Proof.
  intros m codim W. split.
  - intros H. destruct (flag_boundary_ok m codim W H) as (d & E & A & L & D).
    exists d. rewrite (size_count m codim) by lia. do 3 (split; auto).
    intros s b Hb.
    assert (Hs : s < mv_count m codim) by (rewrite <- L; apply nth_error_Some; congruence).
    rewrite (nth_error_nth' _ false) in Hb by (rewrite L; exact Hs). injection Hb as <-.
    rewrite (D s Hs). apply flags_mean. lia.
  - intros H. unfold flag_boundary. destruct (Nat.ltb_spec 0 codim); [|reflexivity].
    destruct (Nat.leb_spec codim 2); [lia|reflexivity].
Qed.

(** *** All co-dimensions *)
Lemma adset_inner : forall rel n f subs (d : adset) l, nth_error d (1 + rel) = Some l -> flagged n f l ->
  (forall s, In s subs -> s < n) ->
  exists d' l', each subs (fun s d => adset_at d (1 + rel) s true) d = Ok d' /\
    length d' = length d /\
    nth_error d' (1 + rel) = Some l' /\ flagged n (fun i => f i || existsb (Nat.eqb i) subs) l' /\
    (forall c, c <> 1 + rel -> nth_error d' c = nth_error d c).
Proof.
  intros rel n f subs d l Hl F R.
  destruct (each_inv (fun done d' => exists l', length d' = length d /\
    nth_error d' (1 + rel) = Some l' /\ flagged n (fun i => f i || existsb (Nat.eqb i) done) l' /\
    (forall c, c <> 1 + rel -> nth_error d' c = nth_error d c))
    (fun s d => adset_at d (1 + rel) s true) subs d) as (d' & E & l' & I).
  - exists l. split; auto. split; auto. split; auto. destruct F as (B & D). split; auto. intros i Hi.
    rewrite (D i Hi). simpl. rewrite orb_false_r. reflexivity.
  - intros done s d1 Hs (l1 & N & A & (B & D) & O). specialize (R s Hs).
    unfold adset_at. rewrite A. rewrite (proj2 (Nat.ltb_lt s (length l1))) by lia. cbn [lf_assert bind].
    assert (HL : 1 + rel < length d1) by (apply nth_error_Some; congruence).
    eexists. split; [reflexivity|]. exists (upd s true l1).
    split; [rewrite upd_length; exact N|].
    split; [rewrite nth_error_upd_eq by exact HL; reflexivity|].
    split; [split; [rewrite upd_length; exact B|]|].
    + intros i Hi. rewrite existsb_app. cbn [existsb]. rewrite orb_false_r, orb_assoc.
      destruct (Nat.eqb_spec i s) as [->|Ne].
      * rewrite nth_upd_eq by lia. rewrite orb_true_r. reflexivity.
      * rewrite nth_upd_neq by auto. rewrite (D i Hi). rewrite orb_false_r. reflexivity.
    + intros c Hc. rewrite nth_error_upd_neq by auto. apply O, Hc.
  - exists d', l'. destruct I as (I1 & I2 & I3 & I4). auto.
Qed.

Lemma flag_all_ok : forall m, wf_mesh m -> exists d1 d2,
  flag_boundary_all m = Ok [repeat false (length (mv_cells m)); d1; d2] /\
  (forall rel l, nth_error [d1; d2] rel = Some l ->
     flagged (mv_count m (1 + rel))
       (fun i => existsb (fun e => bdry m e && existsb (Nat.eqb i) (parts m 1 rel e))
                  (seq 0 (length (mv_edges m)))) l).
Proof.
  intros m W. unfold flag_boundary_all.
  destruct (count_super_ok m 1 1 W) as (cnt & -> & CA & CB & CD); [lia|lia|]. cbn [bind].
  change (mv_count m 1) with (length (mv_edges m)) in *.
  match goal with |- exists d1 d2, each ?l ?b ?s = _ /\ _ =>
  destruct (each_inv (fun done d => exists l1 l2, d = [repeat false (length (mv_cells m)); l1; l2] /\
      flagged (length (mv_edges m)) (fun i => existsb (fun e => bdry m e && existsb (Nat.eqb i) (parts m 1 0 e)) done) l1 /\
      flagged (mv_nodes m) (fun i => existsb (fun e => bdry m e && existsb (Nat.eqb i) (parts m 1 1 e)) done) l2)
      b l s) as (d & E & l1 & l2 & -> & F1 & F2) end.
  - eexists; eexists. split; [reflexivity|].
    split; (split; [apply repeat_length|]); intros i Hi; cbn [existsb]; apply nth_repeat_same.
  - intros done e d He (l1 & l2 & -> & F1 & F2). apply in_seq in He.
    rewrite (dget_ok _ cnt 1 e 0 CA) by lia. cbn [bind]. rewrite CD by lia.
    change (count_occ _ _ _ =? 1) with (bdry m e).
    assert (X : forall rel n f l, flagged n f l -> bdry m e = false ->
      (forall i, f i = existsb (fun e => bdry m e && existsb (Nat.eqb i) (parts m 1 rel e)) done) ->
      flagged n (fun i => existsb (fun e => bdry m e && existsb (Nat.eqb i) (parts m 1 rel e)) (done ++ [e])) l).
    { intros rel n f l (L & D) Be Hf. split; auto. intros i Hi. rewrite (D i Hi), Hf, existsb_app. cbn [existsb].
      rewrite Be. cbn [andb]. rewrite !orb_false_r. reflexivity. }
    destruct (bdry m e) eqn:Be.
    + change (seq 0 2) with [0; 1]. rewrite !each_cons. rewrite sub_parts by lia. cbn [bind].
      destruct (adset_inner 0 (length (mv_edges m)) _ (parts m 1 0 e)
        [repeat false (length (mv_cells m)); l1; l2] l1 eq_refl F1) as (da & la & Ea & Na & Ha & Fa & Oa).
      { intros s Hs. apply (parts_range m 1 0 e s); auto. change (e < length (mv_edges m)). lia. }
      rewrite Ea. cbn [bind].
      assert (Ea' : da = [repeat false (length (mv_cells m)); la; l2]).
      { pose proof (Oa 0 ltac:(lia)) as O0. pose proof (Oa 2 ltac:(lia)) as O2.
        destruct da as [|x [|y [|z [|]]]]; simpl in *; congruence. }
      subst da. rewrite each_cons. rewrite sub_parts by lia. cbn [bind].
      destruct (adset_inner 1 (mv_nodes m) _ (parts m 1 1 e)
        [repeat false (length (mv_cells m)); la; l2] l2 eq_refl F2) as (db & lb & Eb & Nb & Hb & Fb & Ob).
      { intros s Hs. apply (parts_range m 1 1 e s); auto. change (e < length (mv_edges m)). lia. }
      rewrite Eb. cbn [bind].
      assert (Eb' : db = [repeat false (length (mv_cells m)); la; lb]).
      { pose proof (Ob 0 ltac:(lia)) as O0. pose proof (Ob 1 ltac:(lia)) as O2.
        destruct db as [|x [|y [|z [|]]]]; simpl in *; congruence. }
      subst db. eexists. split; [reflexivity|]. exists la, lb. split; [reflexivity|].
      split.
      * destruct Fa as (L' & D'). split; [exact L'|].
        intros i Hi. rewrite (D' i Hi), existsb_app. cbn [existsb]. rewrite Be, orb_false_r. reflexivity.
      * destruct Fb as (L' & D'). split; [exact L'|].
        intros i Hi. rewrite (D' i Hi), existsb_app. cbn [existsb]. rewrite Be, orb_false_r. reflexivity.
    + eexists. split; [reflexivity|]. exists l1, l2. split; [reflexivity|].
      split; eapply X; eauto; reflexivity.
  - exists l1, l2. split; [exact E|]. intros [|[|rel]] l Hl; cbn [nth_error] in Hl.
    + injection Hl as <-. exact F1.
    + injection Hl as <-. exact F2.
    + destruct rel; discriminate.
Qed.

Lemma flag_all_correct : forall m, wf_mesh m -> exists d1 d2,
  flag_boundary_all m = Ok [repeat false (size m 0); d1; d2] /\
  (forall rel l, nth_error [d1; d2] rel = Some l -> length l = size m (1 + rel) /\
     forall s b, nth_error l s = Some b ->
       (b = true <-> exists e k, e < size m 1 /\ one_cell_at m e /\ part m 1 e rel k s)).
Proof.
  intros m W. destruct (flag_all_ok m W) as (d1 & d2 & E & H). exists d1, d2. split; [exact E|].
  intros rel l Hl. assert (Hr : rel <= 1).
  { assert (rel < length [d1; d2]) by (apply nth_error_Some; congruence). simpl in *. lia. }
  destruct (H rel l Hl) as (L & D). rewrite size_count by lia. split; [exact L|].
  intros s b Hb. assert (Hs : s < mv_count m (1 + rel)) by (rewrite <- L; apply nth_error_Some; congruence).
  rewrite (nth_error_nth' _ false) in Hb by (rewrite L; exact Hs). injection Hb as <-.
  rewrite (D s Hs). apply flags_mean, Hr.
Qed.

From Verif Require Import RefineSpec.
Lemma one_cell_adjacent : forall m e, one_cell_at m e <-> adjacent m e = 1.
Proof.
  intros m e. rewrite <- bdry_one. unfold bdry, adjacent. rewrite Nat.eqb_eq.
  assert (G : forall l : list cellv, flat_map (fun i => cv_edges (nth i l (mkCellv [] [] []))) (seq 0 (length l))
              = flat_map cv_edges l).
  { induction l as [|c l IH]; [reflexivity|]. cbn [length seq flat_map nth].
    rewrite <- seq_shift, !flat_map_concat_map, map_map. rewrite !flat_map_concat_map in IH.
    rewrite IH. reflexivity. }
  unfold cell_at. rewrite G. reflexivity.
Qed.
