(** Proofs for C77: memory layout of matrices, operations on lists of values. *)
From Coq Require Import List Arith Lia Bool.
Import ListNotations.
From Verif Require Import Base DofModel MfModel MfSpec.

Lemma nth_error_combine : forall A B (u : list A) (v : list B) k x y, nth_error u k = Some x -> nth_error v k = Some y -> nth_error (combine u v) k = Some (x, y).
Proof. induction u; intros [|b v] [|k] x y H H'; cbn in *; try discriminate; [congruence|eauto]. Qed.
Lemma nth_error_lt : forall A (l : list A) k, k < length l -> exists x, nth_error l k = Some x.
Proof. intros A l k H. destruct (nth_error l k) eqn:E; [eauto|]. apply nth_error_None in E. lia. Qed.
Lemma loop2_ok : forall A B C (f : A -> B -> res C) (g : A -> B -> C) u v, length u = length v ->
  (forall k x y, nth_error u k = Some x -> nth_error v k = Some y -> f x y = Ok (g x y)) ->
  loop2 f u v = Ok (map (fun p => g (fst p) (snd p)) (combine u v)).
Proof.
  intros A B C f g. induction u as [|x u]; intros [|y v] L H; try discriminate L; [reflexivity|]. cbn [loop2 combine map].
  rewrite (H 0 x y eq_refl eq_refl). cbn [bind]. rewrite IHu; [reflexivity|cbn in L; lia|]. intros k a b Ha Hb. exact (H (S k) a b Ha Hb).
Qed.
Lemma chunks_concat : forall A n (ls : list (list A)), Forall (fun l => length l = n) ls -> chunks n (length ls) (concat ls) = ls.
Proof.
  intros A n ls H. induction H as [|l ls L H IH]; [reflexivity|]. cbn [length chunks concat].
  subst n. rewrite firstn_app, skipn_app, Nat.sub_diag, firstn_O, skipn_O, app_nil_r, firstn_all, skipn_all. cbn [app]. rewrite IH. reflexivity.
Qed.
Lemma combine_concat : forall A n (u v : list (list A)), Forall (fun l => length l = n) u -> Forall (fun l => length l = n) v -> length u = length v ->
  combine (concat u) (concat v) = concat (map (fun p => combine (fst p) (snd p)) (combine u v)).
Proof.
  intros A n u. induction u as [|x u IH]; intros [|y v] Hu Hv L; try discriminate L; [reflexivity|]. inversion Hu; inversion Hv; subst. cbn [concat combine map fst snd].
  rewrite <- (IH v) by (cbn in L; try lia; assumption). clear -H5. revert y H5. induction x as [|a x IH]; intros [|b y] L; try discriminate L; [reflexivity|].
  cbn. f_equal. apply IH. cbn in L. lia.
Qed.
Lemma nth_flat_map : forall A (f : nat -> nat -> A) z n m i j, i < n -> j < m -> nth (i * m + j) (flat_map (fun i => map (fun j => f i j) (seq 0 m)) (seq 0 n)) z = f i j.
Proof.
  intros A f z n m i j Hi Hj. enough (Q : forall n s i, i < n -> nth (i * m + j) (flat_map (fun i => map (fun j => f i j) (seq 0 m)) (seq s n)) z = f (s + i) j) by exact (Q n 0 i Hi).
  clear i n Hi. induction n as [|n IH]; intros s i Hi; [lia|]. cbn [seq flat_map].
  assert (Lm : length (map (fun j => f s j) (seq 0 m)) = m) by (rewrite map_length, seq_length; reflexivity).
  destruct i as [|i].
  - rewrite app_nth1 by (rewrite Lm; lia). cbn [Nat.mul Nat.add]. rewrite nth_indep with (d' := f s 0) by (rewrite Lm; lia).
    rewrite (map_nth (fun j => f s j)), seq_nth by lia. f_equal; lia.
  - rewrite app_nth2 by (rewrite Lm; cbn; lia). rewrite Lm. replace (S i * m + j - m) with (i * m + j) by (cbn; lia). rewrite IH by lia. f_equal; lia.
Qed.
Lemma flat_map_length_const : forall A B (f : A -> list B) m l, (forall x, In x l -> length (f x) = m) -> length (flat_map f l) = length l * m.
Proof. intros A B f m l H. induction l as [|x l IH]; [reflexivity|]. cbn. rewrite app_length, (H x (or_introl eq_refl)), IH; [reflexivity|]. intros y I. apply H. right. exact I. Qed.
Lemma nth_map_lt : forall A B (f : A -> B) l n d d', n < length l -> nth n (map f l) d = f (nth n l d').
Proof. intros A B f l. induction l; intros [|n] d d' H; cbn in *; try lia; [reflexivity|]. apply IHl. lia. Qed.
Lemma nth_combine_lt : forall A B (l : list A) (l' : list B) n a b, n < length l -> length l = length l' -> nth n (combine l l') (a, b) = (nth n l a, nth n l' b).
Proof. induction l; intros [|y l'] [|n] x b H L; cbn in *; try lia; try discriminate L; [reflexivity|]. apply IHl; lia. Qed.

Section Values.
Variable K : Type.
Variable T : Type.
Variables (zero : K) (add sub mul : K -> K -> K) (neg cj : K -> K).
Variables (tadd tsub tmul : T -> T -> T) (tneg : T -> T).
Notation mat := (mat K).
Notation at_ := (at_ K zero).
Notation assign := (assign K).
Notation mat_ok := (mat_ok K).
Notation pval := (pval K T).
Notation has_type := (has_type K T).
Notation value_at := (value_at K T zero).
Notation same := (same K T).

Definition index (t : ety) (r c i j : nat) : nat := if et_rm t then i * c + j else j * r + i.
Lemma index_lt : forall t r c i j, i < r -> j < c -> index t r c i j < r * c.
Proof. intros t r c i j Hi Hj. unfold index. destruct (et_rm t); nia. Qed.
Lemma at_assign : forall t r c f i j, i < r -> j < c -> at_ t (assign t r c f) i j = f i j.
Proof.
  intros t r c f i j Hi Hj. unfold MfModel.at_, MfModel.assign. cbn [m_data m_rows m_cols]. destruct (et_rm t).
  - apply nth_flat_map; assumption.
  - exact (nth_flat_map K (fun j i => f i j) zero c r j i Hj Hi).
Qed.
Lemma assign_length : forall t r c f, length (m_data K (assign t r c f)) = r * c.
Proof.
  intros t r c f. unfold MfModel.assign. cbn [m_data]. destruct (et_rm t).
  - rewrite flat_map_length_const with (m := c); [rewrite seq_length; reflexivity|]. intros. rewrite map_length, seq_length. reflexivity.
  - rewrite flat_map_length_const with (m := r); [rewrite seq_length; lia|]. intros. rewrite map_length, seq_length. reflexivity.
Qed.
Lemma assign_ok : forall t r c f, fits (et_rows t) r -> fits (et_cols t) c -> mat_ok t (assign t r c f).
Proof. intros t r c f Hr Hc. split; [exact Hr|]. split; [exact Hc|]. apply assign_length. Qed.
(** Vectors and matrices in the default order are stored alike. *)
Lemma stored_index : forall t r c i j, fixed t = Some (r, c) -> stored t -> i < r -> j < c -> index t r c i j = index (plain_ety (Some r) (Some c)) r c i j.
Proof.
  intros t r c i j Hf Hs Hi Hj. unfold fixed in Hf. destruct (et_rows t) as [r'|] eqn:Er; [|discriminate]. destruct (et_cols t) as [c'|] eqn:Ec; [|discriminate]. injection Hf as -> ->.
  destruct Hs as [Hs|[Hs|Hs]].
  - unfold index, plain_ety. cbn [et_rm]. rewrite Hs, Er, Ec. reflexivity.
  - rewrite Er in Hs. injection Hs as ->. replace i with 0 by lia. unfold index. destruct (et_rm t), (et_rm _); lia.
  - rewrite Ec in Hs. injection Hs as ->. replace j with 0 by lia. unfold index. destruct (et_rm t), (et_rm _); lia.
Qed.
Lemma fixed_dims : forall t r c m, fixed t = Some (r, c) -> mat_ok t m -> m_rows K m = r /\ m_cols K m = c /\ length (m_data K m) = r * c.
Proof.
  intros t r c m Hf (H1 & H2 & H3). unfold fixed in Hf. destruct (et_rows t); [|discriminate]. destruct (et_cols t); [|discriminate]. injection Hf as -> ->. cbn in H1, H2.
  rewrite H1, H2 in H3. auto.
Qed.
Lemma fixed_fields : forall t r c, fixed t = Some (r, c) -> et_rows t = Some r /\ et_cols t = Some c.
Proof. intros t r c Hf. unfold fixed in Hf. destruct (et_rows t); [|discriminate]. destruct (et_cols t); [|discriminate]. injection Hf as -> ->. auto. Qed.

(** *** Values at all points *)
(** [v] has one value for each k < n, and these are the values F. *)
Definition carries (t : vty) (v : vals K T) (n : nat) (F : nat -> option pval) : Prop :=
  has_type t v /\ vsize K T v = n /\ forall k, k < n -> exists w d, F k = Some w /\ value_at v k = Some d /\ same d w.
Lemma carries_scal : forall v n F, carries TScal v n F -> exists l, v = Scals K T l /\ length l = n /\ forall k x, nth_error l k = Some x -> F k = Some (PScal K T x).
Proof.
  intros v n F (Ht & Hs & H). destruct v as [l| |]; try contradiction. exists l. split; [reflexivity|]. split; [exact Hs|]. intros k x E.
  destruct (H k) as (w & d & E1 & E2 & E3). { rewrite <- Hs. apply nth_error_Some. rewrite E. discriminate. }
  cbn in E2. rewrite E in E2. injection E2 as <-. destruct w; cbn in E3; try contradiction. subst. exact E1.
Qed.
Lemma carries_other : forall v n F, carries TOther v n F -> exists l, v = Others K T l /\ length l = n /\ forall k x, nth_error l k = Some x -> F k = Some (POther K T x).
Proof.
  intros v n F (Ht & Hs & H). destruct v as [| |l]; try contradiction. exists l. split; [reflexivity|]. split; [exact Hs|]. intros k x E.
  destruct (H k) as (w & d & E1 & E2 & E3). { rewrite <- Hs. apply nth_error_Some. rewrite E. discriminate. }
  cbn in E2. rewrite E in E2. injection E2 as <-. destruct w; cbn in E3; try contradiction. subst. exact E1.
Qed.
Lemma carries_mat : forall a t v n F, carries (TMat a t) v n F -> exists l, v = Mats K T a t l /\ length l = n /\ Forall (mat_ok t) l /\
  forall k m, nth_error l k = Some m -> exists f, F k = Some (PMat K T a (m_rows K m) (m_cols K m) f) /\ forall i j, i < m_rows K m -> j < m_cols K m -> at_ t m i j = f i j.
Proof.
  intros a t v n F (Ht & Hs & H). destruct v as [|a' t' l|]; try contradiction. destruct Ht as (-> & -> & OK). exists l. split; [reflexivity|]. split; [exact Hs|]. split; [exact OK|]. intros k m E.
  destruct (H k) as (w & d & E1 & E2 & E3). { rewrite <- Hs. apply nth_error_Some. rewrite E. discriminate. }
  cbn in E2. rewrite E in E2. injection E2 as <-. destruct w as [|a' r c f|]; cbn in E3; try contradiction. destruct E3 as (<- & <- & <- & E3). exists f. auto.
Qed.
Lemma mk_scal : forall l F, (forall k x, nth_error l k = Some x -> F k = Some (PScal K T x)) -> carries TScal (Scals K T l) (length l) F.
Proof.
  intros l F H. split; [exact I|]. split; [reflexivity|]. intros k Hk. destruct (nth_error_lt _ l k Hk) as (x & E). exists (PScal K T x), (PScal K T x).
  split; [apply H; exact E|]. split; [cbn; rewrite E; reflexivity|reflexivity].
Qed.
Lemma mk_other : forall l F, (forall k x, nth_error l k = Some x -> F k = Some (POther K T x)) -> carries TOther (Others K T l) (length l) F.
Proof.
  intros l F H. split; [exact I|]. split; [reflexivity|]. intros k Hk. destruct (nth_error_lt _ l k Hk) as (x & E). exists (POther K T x), (POther K T x).
  split; [apply H; exact E|]. split; [cbn; rewrite E; reflexivity|reflexivity].
Qed.
Lemma mk_mat : forall a t l F, Forall (mat_ok t) l ->
  (forall k m, nth_error l k = Some m -> exists f, F k = Some (PMat K T a (m_rows K m) (m_cols K m) f) /\ forall i j, i < m_rows K m -> j < m_cols K m -> at_ t m i j = f i j) ->
  carries (TMat a t) (Mats K T a t l) (length l) F.
Proof.
  intros a t l F OK H. split; [cbn; auto|]. split; [reflexivity|]. intros k Hk. destruct (nth_error_lt _ l k Hk) as (m & E). destruct (H k m E) as (f & E1 & E2).
  exists (PMat K T a (m_rows K m) (m_cols K m) f), (PMat K T a (m_rows K m) (m_cols K m) (at_ t m)). split; [exact E1|]. split; [cbn; rewrite E; reflexivity|]. cbn. auto.
Qed.
(** Results computed object by object. *)
Lemma map_mat : forall a t l (g : mat -> mat) F, (forall m, In m l -> mat_ok t (g m)) ->
  (forall k m, nth_error l k = Some m -> exists f, F k = Some (PMat K T a (m_rows K (g m)) (m_cols K (g m)) f) /\ forall i j, i < m_rows K (g m) -> j < m_cols K (g m) -> at_ t (g m) i j = f i j) ->
  carries (TMat a t) (Mats K T a t (map g l)) (length l) F.
Proof.
  intros a t l g F OK H. rewrite <- (map_length g l). apply mk_mat.
  - apply Forall_forall. intros m I. apply in_map_iff in I. destruct I as (m' & <- & I). auto.
  - intros k m E. rewrite nth_error_map in E. destruct (nth_error l k) as [m'|] eqn:E'; [|discriminate]. injection E as <-. exact (H k m' E').
Qed.
Lemma zip_mat : forall a t A B (u : list A) (v : list B) (g : A -> B -> mat) F, length u = length v ->
  (forall k x y, nth_error u k = Some x -> nth_error v k = Some y -> mat_ok t (g x y) /\
     exists f, F k = Some (PMat K T a (m_rows K (g x y)) (m_cols K (g x y)) f) /\ forall i j, i < m_rows K (g x y) -> j < m_cols K (g x y) -> at_ t (g x y) i j = f i j) ->
  carries (TMat a t) (Mats K T a t (map (fun p => g (fst p) (snd p)) (combine u v))) (length u) F.
Proof.
  intros a t A B u v g F L H. replace (length u) with (length (map (fun p => g (fst p) (snd p)) (combine u v))) by (rewrite map_length, combine_length; lia).
  assert (Q : forall k m, nth_error (map (fun p => g (fst p) (snd p)) (combine u v)) k = Some m -> exists x y, nth_error u k = Some x /\ nth_error v k = Some y /\ m = g x y).
  { intros k m E. assert (Hk : k < length u). { assert (k < length (map (fun p => g (fst p) (snd p)) (combine u v))) by (apply nth_error_Some; rewrite E; discriminate). rewrite map_length, combine_length in H0. lia. }
    destruct (nth_error_lt _ u k Hk) as (x & Ex). destruct (nth_error_lt _ v k ltac:(lia)) as (y & Ey). exists x, y. split; [exact Ex|]. split; [exact Ey|].
    rewrite nth_error_map, (nth_error_combine _ _ u v k x y Ex Ey) in E. cbn in E. congruence. }
  apply mk_mat.
  - apply Forall_forall. intros m I. apply In_nth_error in I. destruct I as (k & E). destruct (Q k m E) as (x & y & Ex & Ey & ->). exact (proj1 (H k x y Ex Ey)).
  - intros k m E. destruct (Q k m E) as (x & y & Ex & Ey & ->). exact (proj2 (H k x y Ex Ey)).
Qed.
Lemma memory_chunks : forall r c (l : list mat), Forall (fun m => length (m_data K m) = r * c) l -> chunks (r * c) (length l) (memory K l) = map (m_data K) l.
Proof. intros r c l H. unfold memory. rewrite <- (map_length (m_data K) l). apply chunks_concat. apply Forall_map. exact H. Qed.
Lemma refill_map : forall r c (l : list mat) (g : K -> K), Forall (fun m => length (m_data K m) = r * c) l ->
  refill K r c (length l) (map g (memory K l)) = map (fun m => mkMat K r c (map g (m_data K m))) l.
Proof.
  intros r c l g H. unfold refill, memory. rewrite concat_map, map_map. rewrite <- (map_length (fun m => map g (m_data K m)) l), chunks_concat, map_map; [reflexivity|].
  apply Forall_map. eapply Forall_impl; [|exact H]. cbn. intros m L. rewrite map_length. exact L.
Qed.
Lemma refill_zip : forall r c (u v : list mat) (f : K -> K -> K), length u = length v -> Forall (fun m => length (m_data K m) = r * c) u -> Forall (fun m => length (m_data K m) = r * c) v ->
  exists w, zip2 f (memory K u) (memory K v) = Ok w /\
  refill K r c (length u) w = map (fun p => mkMat K r c (map (fun q => f (fst q) (snd q)) (combine (m_data K (fst p)) (m_data K (snd p))))) (combine u v).
Proof.
  intros r c u v f L Hu Hv.
  assert (Lm : length (memory K u) = length (memory K v)).
  { unfold memory. clear -L Hu Hv. revert v L Hv. induction Hu as [|x u Hx Hu IH]; intros [|y v] L Hv; try discriminate L; [reflexivity|]. inversion Hv; subst. cbn. rewrite !app_length, Hx, H1, (IH v); [reflexivity|cbn in L; lia|assumption]. }
  unfold zip2. rewrite Lm, Nat.eqb_refl. cbn [lf_assert bind]. eexists. split; [reflexivity|]. unfold refill, memory.
  assert (Fu : Forall (fun l => length l = r * c) (map (m_data K) u)) by (apply Forall_map; exact Hu).
  assert (Fv : Forall (fun l => length l = r * c) (map (m_data K) v)) by (apply Forall_map; exact Hv).
  rewrite (combine_concat K (r * c)) by (rewrite ?map_length; assumption). rewrite concat_map, map_map.
  assert (E : combine (map (m_data K) u) (map (m_data K) v) = map (fun p => (m_data K (fst p), m_data K (snd p))) (combine u v)).
  { clear. revert v. induction u; intros [|y v]; cbn; congruence. }
  rewrite E, map_map. cbn [fst snd].
  replace (length u) with (length (map (fun x => map (fun q => f (fst q) (snd q)) (combine (m_data K (fst x)) (m_data K (snd x)))) (combine u v))) by (rewrite map_length, combine_length; lia).
  rewrite chunks_concat; [rewrite map_map; reflexivity|].
  apply Forall_forall. intros d I. apply in_map_iff in I. destruct I as ([x y] & <- & I). rewrite map_length, combine_length. cbn [fst snd].
  rewrite (proj1 (Forall_forall _ _) Hu x (in_combine_l _ _ _ _ I)), (proj1 (Forall_forall _ _) Hv y (in_combine_r _ _ _ _ I)). lia.
Qed.
Lemma data_lengths : forall t r c l, fixed t = Some (r, c) -> Forall (mat_ok t) l -> Forall (fun m => length (m_data K m) = r * c) l.
Proof. intros t r c l Hf H. eapply Forall_impl; [|exact H]. cbn. intros m Hm. apply (fixed_dims t r c m Hf Hm). Qed.
Lemma sum_up_total : forall n f, sum_up K zero add (map f (seq 0 n)) = total K zero add n f.
Proof. intros n f. unfold sum_up. induction n as [|n IH]; [reflexivity|]. rewrite seq_S, map_app, fold_left_app, IH. reflexivity. Qed.
End Values.
