(** Proofs for C77: the operators, one by one; expressions. *)
From Coq Require Import List Arith Lia Bool.
Import ListNotations.
From Verif Require Import Base DofModel MfModel MfSpec MfProofs.

Section Ops.
Variable K : Type.
Variable T : Type.
Variables (zero : K) (add sub mul : K -> K -> K) (neg cj : K -> K).
Variables (tadd tsub tmul : T -> T -> T) (tneg : T -> T).
Notation mat := (mat K).
Notation at_ := (at_ K zero).
Notation assign := (assign K).
Notation mat_ok := (mat_ok K).
Notation pval := (pval K T).
Notation carries := (carries K T zero).

Lemma bound : forall A (l : list A) n k x, length l = n -> nth_error l k = Some x -> k < n.
Proof. intros A l n k x L E. rewrite <- L. apply nth_error_Some. rewrite E. discriminate. Qed.
Lemma at_map : forall t r c d (g : K -> K) i j, length d = r * c -> i < r -> j < c -> at_ t (mkMat K r c (map g d)) i j = g (at_ t (mkMat K r c d) i j).
Proof. intros t r c d g i j L Hi Hj. unfold MfModel.at_. cbn [m_data m_rows m_cols]. apply nth_map_lt. pose proof (index_lt t r c i j Hi Hj) as Q. unfold index in Q. rewrite L. exact Q. Qed.
Lemma at_zip : forall t r c d d' (f : K -> K -> K) i j, length d = r * c -> length d' = r * c -> i < r -> j < c ->
  at_ t (mkMat K r c (map (fun q => f (fst q) (snd q)) (combine d d'))) i j = f (at_ t (mkMat K r c d) i j) (at_ t (mkMat K r c d') i j).
Proof.
  intros t r c d d' f i j L L' Hi Hj. unfold MfModel.at_. cbn [m_data m_rows m_cols]. pose proof (index_lt t r c i j Hi Hj) as Q. unfold index in Q.
  rewrite nth_map_lt with (d' := (zero, zero)) by (rewrite combine_length; lia). rewrite nth_combine_lt by lia. reflexivity.
Qed.
(** A fixed size matrix in default order, or a vector, read in the order of the result. *)
Lemma at_stored : forall t r c m i j, fixed t = Some (r, c) -> mat_ok t m -> stored t -> i < r -> j < c ->
  at_ (plain_ety (Some r) (Some c)) (mkMat K r c (m_data K m)) i j = at_ t m i j.
Proof.
  intros t r c m i j Hf OK Hs Hi Hj. destruct (fixed_dims K t r c m Hf OK) as (E1 & E2 & _). unfold MfModel.at_. cbn [m_data m_rows m_cols]. rewrite E1, E2. f_equal.
  symmetry. exact (stored_index t r c i j Hf Hs Hi Hj).
Qed.
Lemma lt_b : forall n, 0 < n -> (0 <? n) = true. Proof. intros. apply Nat.ltb_lt. assumption. Qed.

Lemma minus_ok : forall t v n F, 0 < n -> carries t v n F -> exists w, op_minus K T zero neg tneg v = Ok w /\ carries t w n (fun k => on1 K T (v_neg K T neg tneg) (F k)).
Proof.
  intros t v n F Hn H. destruct t as [|a t|].
  - destruct (carries_scal _ _ _ v n F H) as (l & -> & L & Q). eexists. split; [reflexivity|]. rewrite <- L, <- (map_length neg l). apply mk_scal. intros k x E.
    rewrite nth_error_map in E. destruct (nth_error l k) as [y|] eqn:Ey; [|discriminate]. injection E as <-. rewrite (Q k y Ey). reflexivity.
  - destruct (carries_mat _ _ _ a t v n F H) as (l & -> & L & OK & Q). cbn [op_minus]. destruct (fixed t) as [[r c]|] eqn:Ef.
    + destruct ((r =? 0) || (c =? 0)) eqn:Ez.
      * eexists. split; [reflexivity|]. rewrite <- L. apply mk_mat; [exact OK|]. intros k m E. destruct (Q k m E) as (f & EF & _). rewrite EF. cbn. eexists. split; [reflexivity|].
        intros i j Hi Hj. exfalso. destruct (fixed_dims K t r c m Ef (proj1 (Forall_forall _ _) OK m (nth_error_In _ _ E))) as (D1 & D2 & _). rewrite D1 in Hi. rewrite D2 in Hj. apply orb_true_iff in Ez. destruct Ez as [Ez|Ez]; apply Nat.eqb_eq in Ez; lia.
      * rewrite L, (lt_b n Hn). cbn [lf_assert bind]. eexists. split; [reflexivity|]. rewrite <- L, (refill_map K r c l neg (data_lengths K t r c l Ef OK)). apply map_mat.
        -- intros m I. destruct (fixed_dims K t r c m Ef (proj1 (Forall_forall _ _) OK m I)) as (D1 & D2 & D3). destruct (fixed_fields t r c Ef) as (F1 & F2).
           split; [rewrite F1; reflexivity|]. split; [rewrite F2; reflexivity|]. cbn [m_data m_rows m_cols]. rewrite map_length. exact D3.
        -- intros k m E. destruct (fixed_dims K t r c m Ef (proj1 (Forall_forall _ _) OK m (nth_error_In _ _ E))) as (D1 & D2 & D3). destruct (Q k m E) as (f & EF & Ea). rewrite EF. cbn [on1 v_neg m_rows m_cols].
           rewrite D1, D2. eexists. split; [reflexivity|]. intros i j Hi Hj. rewrite (at_map t r c _ neg i j D3 Hi Hj). f_equal. rewrite D1, D2 in Ea. rewrite <- (Ea i j Hi Hj). unfold MfModel.at_. cbn [m_rows m_cols m_data]. rewrite D1, D2. reflexivity.
    + eexists. split; [reflexivity|]. rewrite <- L. apply map_mat.
      * intros m I. pose proof (proj1 (Forall_forall _ _) OK m I) as (D1 & D2 & _). apply assign_ok; assumption.
      * intros k m E. destruct (Q k m E) as (f & EF & Ea). rewrite EF. cbn [on1 v_neg]. eexists. split; [reflexivity|]. intros i j Hi Hj. cbn in Hi, Hj. rewrite at_assign by assumption. rewrite Ea by assumption. reflexivity.
  - destruct (carries_other _ _ _ v n F H) as (l & -> & L & Q). eexists. split; [reflexivity|]. rewrite <- L, <- (map_length tneg l). apply mk_other. intros k x E.
    rewrite nth_error_map in E. destruct (nth_error l k) as [y|] eqn:Ey; [|discriminate]. injection E as <-. rewrite (Q k y Ey). reflexivity.
Qed.

Lemma transpose_ok : forall a t v n F, carries (TMat a t) v n F ->
  exists w, op_transpose K T zero v = Ok w /\ carries (TMat a (plain_ety (et_cols t) (et_rows t))) w n (fun k => on1 K T (v_transpose K T) (F k)).
Proof.
  intros a t v n F H. destruct (carries_mat _ _ _ a t v n F H) as (l & -> & L & OK & Q). eexists. split; [reflexivity|]. rewrite <- L. apply map_mat.
  - intros m I. pose proof (proj1 (Forall_forall _ _) OK m I) as (D1 & D2 & _). apply assign_ok; assumption.
  - intros k m E. destruct (Q k m E) as (f & EF & Ea). rewrite EF. cbn [on1 v_transpose]. eexists. split; [reflexivity|]. intros i j Hi Hj. cbn in Hi, Hj. rewrite at_assign by assumption. rewrite Ea by assumption. reflexivity.
Qed.
Lemma adjoint_ok : forall t v n F, carries (TMat false t) v n F ->
  exists w, op_adjoint K T zero cj v = Ok w /\ carries (TMat false (plain_ety (et_cols t) (et_rows t))) w n (fun k => on1 K T (v_adjoint K T cj) (F k)).
Proof.
  intros t v n F H. destruct (carries_mat _ _ _ false t v n F H) as (l & -> & L & OK & Q). eexists. split; [reflexivity|]. rewrite <- L. apply map_mat.
  - intros m I. pose proof (proj1 (Forall_forall _ _) OK m I) as (D1 & D2 & _). apply assign_ok; assumption.
  - intros k m E. destruct (Q k m E) as (f & EF & Ea). rewrite EF. cbn [on1 v_adjoint]. eexists. split; [reflexivity|]. intros i j Hi Hj. cbn in Hi, Hj. rewrite at_assign by assumption. rewrite Ea by assumption. reflexivity.
Qed.
Lemma conj_scal_ok : forall v n F, carries TScal v n F ->
  exists w, op_conjugate K T zero cj v = Ok w /\ carries TScal w n (fun k => on1 K T (v_conj K T cj) (F k)).
Proof.
  intros v n F H. destruct (carries_scal _ _ _ v n F H) as (l & -> & L & Q). eexists. split; [reflexivity|]. rewrite <- L, <- (map_length cj l). apply mk_scal. intros k x E.
  rewrite nth_error_map in E. destruct (nth_error l k) as [y|] eqn:Ey; [|discriminate]. injection E as <-. rewrite (Q k y Ey). reflexivity.
Qed.
Lemma conj_mat_ok : forall a t v n F, carries (TMat a t) v n F ->
  exists w, op_conjugate K T zero cj v = Ok w /\ carries (TMat a (plain_ety (et_rows t) (et_cols t))) w n (fun k => on1 K T (v_conj K T cj) (F k)).
Proof.
  intros a t v n F H. destruct (carries_mat _ _ _ a t v n F H) as (l & -> & L & OK & Q). eexists. split; [reflexivity|]. rewrite <- L. apply map_mat.
  - intros m I. pose proof (proj1 (Forall_forall _ _) OK m I) as (D1 & D2 & _). apply assign_ok; assumption.
  - intros k m E. destruct (Q k m E) as (f & EF & Ea). rewrite EF. cbn [on1 v_conj]. eexists. split; [reflexivity|]. intros i j Hi Hj. cbn in Hi, Hj. rewrite at_assign by assumption. rewrite Ea by assumption. reflexivity.
Qed.

(** The entries of a vector are its memory. *)
Lemma column_data : forall t m, mat_ok t m -> m_cols K m = 1 -> m_data K m = map (fun i => at_ t m i 0) (seq 0 (m_rows K m)).
Proof.
  intros t m (_ & _ & D) E. apply nth_ext with (d := zero) (d' := zero). { rewrite map_length, seq_length, D. lia. }
  intros k Hk. rewrite D, E, Nat.mul_1_r in Hk. rewrite nth_map_lt with (d' := 0) by (rewrite seq_length; exact Hk). rewrite seq_nth by exact Hk. cbn [Nat.add].
  unfold MfModel.at_. rewrite E. destruct (et_rm t); f_equal; lia.
Qed.
Lemma row_data : forall t m, mat_ok t m -> m_rows K m = 1 -> m_data K m = map (fun j => at_ t m 0 j) (seq 0 (m_cols K m)).
Proof.
  intros t m (_ & _ & D) E. apply nth_ext with (d := zero) (d' := zero). { rewrite map_length, seq_length, D. lia. }
  intros k Hk. rewrite D, E, Nat.mul_1_l in Hk. rewrite nth_map_lt with (d' := 0) by (rewrite seq_length; exact Hk). rewrite seq_nth by exact Hk. cbn [Nat.add].
  unfold MfModel.at_. rewrite E. destruct (et_rm t); f_equal; lia.
Qed.
Lemma total_ext : forall n f g, (forall i, i < n -> f i = g i) -> total K zero add n f = total K zero add n g.
Proof. induction n; intros f g H; [reflexivity|]. cbn. rewrite (IHn f g), (H n) by auto. reflexivity. Qed.
Lemma norm_value : forall t m f, mat_ok t m -> (forall i j, i < m_rows K m -> j < m_cols K m -> at_ t m i j = f i j) -> (m_rows K m = 1 \/ m_cols K m = 1) ->
  v_norm2 K T zero add mul cj (PMat K T false (m_rows K m) (m_cols K m) f) = Some (PScal K T (sum_up K zero add (map (sq K mul cj) (m_data K m)))).
Proof.
  intros t m f OK Ea V. destruct (Nat.eq_dec (m_cols K m) 1) as [Ec|Nc].
  - rewrite Ec. unfold v_norm2. assert (Q : forall r, match r with 1 => Some (PScal K T (total K zero add r (fun i => mul (f i 0) (cj (f i 0))))) | _ => Some (PScal K T (total K zero add r (fun i => mul (f i 0) (cj (f i 0))))) end
      = Some (PScal K T (total K zero add r (fun i => mul (f i 0) (cj (f i 0)))))) by (intros [|[|r]]; reflexivity).
    try rewrite Q. do 2 f_equal. rewrite (column_data t m OK Ec), map_map, sum_up_total. apply total_ext. intros i Hi. unfold sq. rewrite Ea by lia. reflexivity.
  - assert (Er : m_rows K m = 1) by tauto. rewrite (row_data t m OK Er), map_map, sum_up_total. rewrite Er. unfold v_norm2.
    rewrite Er in Ea. destruct (m_cols K m) as [|[|c]]; [reflexivity|congruence|]. do 2 f_equal. apply total_ext. intros j Hj. unfold sq. rewrite Ea by lia. reflexivity.
Qed.
Lemma norm_scal_ok : forall v n F, carries TScal v n F -> exists w, op_squaredNorm K T zero add mul cj v = Ok w /\ carries TScal w n (fun k => on1 K T (v_norm2 K T zero add mul cj) (F k)).
Proof.
  intros v n F H. destruct (carries_scal _ _ _ v n F H) as (l & -> & L & Q). eexists. split; [reflexivity|]. rewrite <- L, <- (map_length (sq K mul cj) l). apply mk_scal. intros k x E.
  rewrite nth_error_map in E. destruct (nth_error l k) as [y|] eqn:Ey; [|discriminate]. injection E as <-. rewrite (Q k y Ey). reflexivity.
Qed.
Lemma norm_vec_ok : forall t v n F, 0 < n -> carries (TMat false t) v n F -> nonempty t -> (forall r c, fixed t = Some (r, c) -> r = 1 \/ c = 1) ->
  (forall k, k < n -> exists w, on1 K T (v_norm2 K T zero add mul cj) (F k) = Some w) ->
  exists w, op_squaredNorm K T zero add mul cj v = Ok w /\ carries TScal w n (fun k => on1 K T (v_norm2 K T zero add mul cj) (F k)).
Proof.
  intros t v n F Hn H NE V Df. destruct (carries_mat _ _ _ false t v n F H) as (l & -> & L & OK & Q).
  set (res := map (fun m => sum_up K zero add (map (sq K mul cj) (m_data K m))) l).
  assert (C : carries TScal (Scals K T res) n (fun k => on1 K T (v_norm2 K T zero add mul cj) (F k))).
  { replace n with (length res) by (unfold res; rewrite map_length; exact L). apply mk_scal. intros k x E. unfold res in E. rewrite nth_error_map in E. destruct (nth_error l k) as [m|] eqn:Em; [|discriminate]. injection E as <-.
    destruct (Q k m Em) as (f & EF & Ea). destruct (Df k (bound _ l n k m L Em)) as (w & Ew). rewrite EF in *. cbn [on1] in *. apply (norm_value t); [exact (proj1 (Forall_forall _ _) OK m (nth_error_In _ _ Em))|exact Ea|].
    unfold v_norm2 in Ew. destruct (m_cols K m) as [|[|c]]; [|auto|]; (destruct (m_rows K m) as [|[|r]]; [discriminate Ew|auto|discriminate Ew]). }
  cbn [op_squaredNorm]. destruct (fixed t) as [[r c]|] eqn:Ef.
  - destruct (fixed_fields t r c Ef) as (F1 & F2). destruct NE as (N1 & N2). rewrite F1 in N1. rewrite F2 in N2.
    assert (Er : (r =? 0) = false) by (apply Nat.eqb_neq; congruence). assert (Ec : (c =? 0) = false) by (apply Nat.eqb_neq; congruence). rewrite Er, Ec. cbn [orb negb verify bind].
    pose proof (memory_chunks K r c l (data_lengths K t r c l Ef OK)) as MC. assert (HL : (0 <? length l) = true) by (rewrite L; apply lt_b; exact Hn).
    destruct (Nat.eqb_spec c 1) as [C1|C1].
    + rewrite HL. cbn [lf_assert bind]. subst c. rewrite Nat.mul_1_r in MC. rewrite MC, map_map. eexists. split; [reflexivity|exact C].
    + destruct (V r c eq_refl) as [-> | ]; [|contradiction]. rewrite Nat.eqb_refl, HL. cbn [lf_assert bind]. rewrite Nat.mul_1_l in MC. rewrite MC, map_map. eexists. split; [reflexivity|exact C].
  - eexists. split; [reflexivity|exact C].
Qed.

(** *** Binary operators *)
Lemma defined_pair : forall (f : K -> K -> K) (t : T -> T -> T) a r c g a' r' c' h w, v_both K T f t (PMat K T a r c g) (PMat K T a' r' c' h) = Some w -> r = r' /\ c = c'.
Proof. intros f t a r c g a' r' c' h w E. cbn in E. destruct (Bool.eqb a a' && (r =? r') && (c =? c')) eqn:Q; [|discriminate]. apply andb_true_iff in Q. destruct Q as [Q Q2]. apply andb_true_iff in Q. destruct Q as [_ Q1]. apply Nat.eqb_eq in Q1, Q2. auto. Qed.
Lemma both_same : forall (f : K -> K -> K) (t : T -> T -> T) a r c g h, v_both K T f t (PMat K T a r c g) (PMat K T a r c h) = Some (PMat K T a r c (fun i j => f (g i j) (h i j))).
Proof. intros. cbn. rewrite eqb_reflx, !Nat.eqb_refl. reflexivity. Qed.
Lemma fits_max : forall o o' n, fits o n -> fits o' n -> fits (max_dim o o') n.
Proof. intros [a|] [b|] n H H'; cbn in *; subst; auto. rewrite Nat.max_id. reflexivity. Qed.
Lemma coefficientwise_ok : forall (f : K -> K -> K) (tf : T -> T -> T) a t1 t2 u v n F G, 0 < n -> carries (TMat a t1) u n F -> carries (TMat a t2) v n G -> same_if_fixed t1 t2 ->
  (forall k, k < n -> exists w, on2 K T (v_both K T f tf) (F k) (G k) = Some w) ->
  exists lu lv w, u = Mats K T a t1 lu /\ v = Mats K T a t2 lv /\ coefficientwise K T zero f a t1 lu t2 lv = Ok w /\
    carries (TMat a (sum_type t1 t2)) w n (fun k => on2 K T (v_both K T f tf) (F k) (G k)).
Proof.
  intros f tf a t1 t2 u v n F G Hn HF HG SF Df. destruct (carries_mat _ _ _ a t1 u n F HF) as (lu & -> & Lu & Ou & Qu). destruct (carries_mat _ _ _ a t2 v n G HG) as (lv & -> & Lv & Ov & Qv).
  exists lu, lv.
  assert (Dim : forall k x y, nth_error lu k = Some x -> nth_error lv k = Some y -> m_rows K x = m_rows K y /\ m_cols K x = m_cols K y).
  { intros k x y Ex Ey. destruct (Qu k x Ex) as (g & EF & _). destruct (Qv k y Ey) as (h & EG & _). destruct (Df k (bound _ lu n k x Lu Ex)) as (w & Ew). rewrite EF, EG in Ew. exact (defined_pair f tf _ _ _ _ _ _ _ _ _ Ew). }
  assert (Loop : forall t, (forall k x y, nth_error lu k = Some x -> nth_error lv k = Some y -> fits (et_rows t) (m_rows K x) /\ fits (et_cols t) (m_cols K x)) ->
    exists w, (do w <- loop2 (fun x y => do _ <- lf_assert (m_rows K x =? m_rows K y); do _ <- lf_assert (m_cols K x =? m_cols K y);
        Ok (assign t (m_rows K x) (m_cols K x) (fun i j => f (at_ t1 x i j) (at_ t2 y i j)))) lu lv; Ok (Mats K T a t w)) = Ok w /\
      carries (TMat a t) w n (fun k => on2 K T (v_both K T f tf) (F k) (G k))).
  { intros t Ft. rewrite (loop2_ok _ _ _ _ (fun x y => assign t (m_rows K x) (m_cols K x) (fun i j => f (at_ t1 x i j) (at_ t2 y i j)))) by
      (congruence || (intros k x y Ex Ey; destruct (Dim k x y Ex Ey) as (-> & ->); rewrite !Nat.eqb_refl; reflexivity)).
    cbn [bind]. eexists. split; [reflexivity|]. rewrite <- Lu. apply (zip_mat K T zero a t _ _ lu lv (fun x y => assign t (m_rows K x) (m_cols K x) (fun i j => f (at_ t1 x i j) (at_ t2 y i j)))); [congruence|]. intros k x y Ex Ey. destruct (Ft k x y Ex Ey) as (F1 & F2). split; [apply assign_ok; assumption|].
    destruct (Qu k x Ex) as (g & EF & Eg). destruct (Qv k y Ey) as (h & EG & Eh). destruct (Dim k x y Ex Ey) as (D1 & D2). rewrite EF, EG. cbn [on2]. rewrite <- D1, <- D2, both_same. eexists. split; [reflexivity|].
    intros i j Hi Hj. cbn in Hi, Hj. rewrite at_assign by assumption. rewrite Eg, Eh by lia. reflexivity. }
  assert (FitsMax : forall k x y, nth_error lu k = Some x -> nth_error lv k = Some y -> fits (max_dim (et_rows t1) (et_rows t2)) (m_rows K x) /\ fits (max_dim (et_cols t1) (et_cols t2)) (m_cols K x)).
  { intros k x y Ex Ey. destruct (Dim k x y Ex Ey) as (D1 & D2). pose proof (proj1 (Forall_forall _ _) Ou x (nth_error_In _ _ Ex)) as (A1 & A2 & _). pose proof (proj1 (Forall_forall _ _) Ov y (nth_error_In _ _ Ey)) as (B1 & B2 & _).
    rewrite <- D1 in B1. rewrite <- D2 in B2. split; apply fits_max; assumption. }
  unfold coefficientwise, sum_type, same_if_fixed in *. destruct (fixed t1) as [[r1 c1]|] eqn:F1; destruct (fixed t2) as [[r2 c2]|] eqn:F2.
  - destruct SF as (E & S1 & S2). injection E as <- <-. rewrite !Nat.eqb_refl. cbn [andb verify bind]. rewrite Lu, Lv, (lt_b n Hn). cbn [andb lf_assert bind].
    destruct (refill_zip K r1 c1 lu lv f ltac:(congruence) (data_lengths K t1 r1 c1 lu F1 Ou) (data_lengths K t2 r1 c1 lv F2 Ov)) as (w & Ew & Er). rewrite Ew. cbn [bind]. rewrite <- Lu, Er.
    destruct (fixed_fields t1 r1 c1 F1) as (A1 & A2). destruct (fixed_fields t2 r1 c1 F2) as (B1 & B2). rewrite A1, A2, B1, B2. cbn [max_dim]. rewrite !Nat.max_id.
    eexists. split; [reflexivity|]. split; [reflexivity|]. split; [reflexivity|].
    apply (zip_mat K T zero a (plain_ety (Some r1) (Some c1)) _ _ lu lv (fun x y => mkMat K r1 c1 (map (fun q => f (fst q) (snd q)) (combine (m_data K x) (m_data K y))))); [congruence|].
    intros k x y Ex Ey. pose proof (proj1 (Forall_forall _ _) Ou x (nth_error_In _ _ Ex)) as Ox. pose proof (proj1 (Forall_forall _ _) Ov y (nth_error_In _ _ Ey)) as Oy.
    destruct (fixed_dims K t1 r1 c1 x F1 Ox) as (X1 & X2 & X3). destruct (fixed_dims K t2 r1 c1 y F2 Oy) as (Y1 & Y2 & Y3).
    split. { split; [reflexivity|]. split; [reflexivity|]. cbn [m_data m_rows m_cols]. rewrite map_length, combine_length. lia. }
    destruct (Qu k x Ex) as (g & EF & Eg). destruct (Qv k y Ey) as (h & EG & Eh). rewrite EF, EG. cbn [on2]. rewrite X1, X2, Y1, Y2, both_same. cbn [m_rows m_cols]. eexists. split; [reflexivity|].
    intros i j Hi Hj. rewrite at_zip by assumption. rewrite X1, X2 in Eg. rewrite Y1, Y2 in Eh. rewrite <- Eg, <- Eh by assumption. f_equal; apply at_stored; assumption.
  - destruct (Loop (plain_ety (max_dim (et_rows t1) (et_rows t2)) (max_dim (et_cols t1) (et_cols t2))) FitsMax) as (w & E & C). exists w. auto.
  - destruct (Loop (plain_ety (max_dim (et_rows t1) (et_rows t2)) (max_dim (et_cols t1) (et_cols t2))) FitsMax) as (w & E & C). exists w. auto.
  - destruct (Loop (plain_ety None None)) as (w & E & C); [|exists w; auto]. intros. cbn. auto.
Qed.
Lemma zip_scal : forall (f : K -> K -> K) (op : pval -> pval -> option pval) lu lv n F G, length lu = n -> length lv = n ->
  (forall x y, op (PScal K T x) (PScal K T y) = Some (PScal K T (f x y))) ->
  (forall k x, nth_error lu k = Some x -> F k = Some (PScal K T x)) -> (forall k x, nth_error lv k = Some x -> G k = Some (PScal K T x)) ->
  exists w, (do w <- zip2 f lu lv; Ok (Scals K T w)) = Ok w /\ carries TScal w n (fun k => on2 K T op (F k) (G k)).
Proof.
  intros f op lu lv n F G Lu Lv Hop Qu Qv. unfold zip2. rewrite Lu, Lv, Nat.eqb_refl. cbn [lf_assert bind]. eexists. split; [reflexivity|].
  replace n with (length (map (fun p => f (fst p) (snd p)) (combine lu lv))) by (rewrite map_length, combine_length; lia). apply mk_scal. intros k x E.
  assert (Hk : k < n). { assert (k < length (map (fun p => f (fst p) (snd p)) (combine lu lv))) by (apply nth_error_Some; rewrite E; discriminate). rewrite map_length, combine_length in H. lia. }
  destruct (nth_error_lt _ lu k ltac:(lia)) as (a & Ea). destruct (nth_error_lt _ lv k ltac:(lia)) as (b & Eb). rewrite nth_error_map, (nth_error_combine _ _ lu lv k a b Ea Eb) in E. cbn in E. injection E as <-.
  rewrite (Qu k a Ea), (Qv k b Eb). cbn. apply Hop.
Qed.
Lemma zip_other : forall (f : T -> T -> T) (op : pval -> pval -> option pval) lu lv n F G, length lu = n -> length lv = n ->
  (forall x y, op (POther K T x) (POther K T y) = Some (POther K T (f x y))) ->
  (forall k x, nth_error lu k = Some x -> F k = Some (POther K T x)) -> (forall k x, nth_error lv k = Some x -> G k = Some (POther K T x)) ->
  exists w, (do w <- loop2 (fun x y => Ok (f x y)) lu lv; Ok (Others K T w)) = Ok w /\ carries TOther w n (fun k => on2 K T op (F k) (G k)).
Proof.
  intros f op lu lv n F G Lu Lv Hop Qu Qv. rewrite (loop2_ok _ _ _ _ f) by (congruence || reflexivity). cbn [bind]. eexists. split; [reflexivity|].
  replace n with (length (map (fun p => f (fst p) (snd p)) (combine lu lv))) by (rewrite map_length, combine_length; lia). apply mk_other. intros k x E.
  assert (Hk : k < n). { assert (k < length (map (fun p => f (fst p) (snd p)) (combine lu lv))) by (apply nth_error_Some; rewrite E; discriminate). rewrite map_length, combine_length in H. lia. }
  destruct (nth_error_lt _ lu k ltac:(lia)) as (a & Ea). destruct (nth_error_lt _ lv k ltac:(lia)) as (b & Eb). rewrite nth_error_map, (nth_error_combine _ _ lu lv k a b Ea Eb) in E. cbn in E. injection E as <-.
  rewrite (Qu k a Ea), (Qv k b Eb). cbn. apply Hop.
Qed.
Lemma product_ok : forall t1 t2 u v n F G, carries (TMat false t1) u n F -> carries (TMat false t2) v n G ->
  (forall k, k < n -> exists w, on2 K T (v_mul K T zero add mul tmul) (F k) (G k) = Some w) -> 0 < n ->
  exists lu lv w, u = Mats K T false t1 lu /\ v = Mats K T false t2 lv /\ matrix_product K T zero add mul t1 lu t2 lv = Ok w /\
    carries (TMat false (product_type t1 t2)) w n (fun k => on2 K T (v_mul K T zero add mul tmul) (F k) (G k)).
Proof.
  intros t1 t2 u v n F G HF HG Df Hn. destruct (carries_mat _ _ _ false t1 u n F HF) as (lu & -> & Lu & Ou & Qu). destruct (carries_mat _ _ _ false t2 v n G HG) as (lv & -> & Lv & Ov & Qv).
  exists lu, lv.
  assert (Dim : forall k x y, nth_error lu k = Some x -> nth_error lv k = Some y -> m_cols K x = m_rows K y).
  { intros k x y Ex Ey. destruct (Qu k x Ex) as (g & EF & _). destruct (Qv k y Ey) as (h & EG & _). destruct (Df k (bound _ lu n k x Lu Ex)) as (w & Ew). rewrite EF, EG in Ew. cbn in Ew.
    destruct (Nat.eqb_spec (m_cols K x) (m_rows K y)); [assumption|discriminate]. }
  unfold matrix_product. fold (product_type t1 t2).
  assert (St : match et_rows t1, et_cols t2, et_cols t1, et_rows t2 with Some _, Some _, Some c, Some r => c =? r | _, _, _, _ => true end = true).
  { destruct (et_rows t1); [|reflexivity]. destruct (et_cols t2); [|reflexivity]. destruct (et_cols t1) eqn:E1; [|reflexivity]. destruct (et_rows t2) eqn:E2; [|reflexivity].
    destruct (nth_error_lt _ lu 0 ltac:(lia)) as (x & Ex). destruct (nth_error_lt _ lv 0 ltac:(lia)) as (y & Ey). pose proof (Dim 0 x y Ex Ey) as D.
    pose proof (proj1 (Forall_forall _ _) Ou x (nth_error_In _ _ Ex)) as (_ & A2 & _). pose proof (proj1 (Forall_forall _ _) Ov y (nth_error_In _ _ Ey)) as (B1 & _). rewrite E1 in A2. rewrite E2 in B1. cbn in A2, B1. apply Nat.eqb_eq. congruence. }
  rewrite St. cbn [verify bind]. set (t := product_type t1 t2).
  rewrite (loop2_ok _ _ _ _ (fun x y => assign t (m_rows K x) (m_cols K y) (fun i j => dot_ K zero add mul (m_cols K x) (fun k => at_ t1 x i k) (fun k => at_ t2 y k j)))) by
    (congruence || (intros k x y Ex Ey; rewrite (Dim k x y Ex Ey), Nat.eqb_refl; reflexivity)).
  cbn [bind]. eexists. split; [reflexivity|]. split; [reflexivity|]. split; [reflexivity|]. rewrite <- Lu. apply (zip_mat K T zero false t _ _ lu lv (fun x y => assign t (m_rows K x) (m_cols K y) (fun i j => dot_ K zero add mul (m_cols K x) (fun k => at_ t1 x i k) (fun k => at_ t2 y k j)))); [congruence|]. intros k x y Ex Ey.
  pose proof (proj1 (Forall_forall _ _) Ou x (nth_error_In _ _ Ex)) as (A1 & _). pose proof (proj1 (Forall_forall _ _) Ov y (nth_error_In _ _ Ey)) as (_ & B2 & _).
  split. { apply assign_ok; unfold t, product_type; destruct (et_rows t1), (et_cols t2); cbn in *; auto. }
  destruct (Qu k x Ex) as (g & EF & Eg). destruct (Qv k y Ey) as (h & EG & Eh). pose proof (Dim k x y Ex Ey) as D. rewrite EF, EG. cbn [on2 v_mul m_rows m_cols MfModel.assign]. rewrite <- D, Nat.eqb_refl. eexists. split; [reflexivity|].
  intros i j Hi Hj. change (at_ t (assign t (m_rows K x) (m_cols K y) (fun i j => dot_ K zero add mul (m_cols K x) (fun k => at_ t1 x i k) (fun k => at_ t2 y k j))) i j = total K zero add (m_cols K x) (fun l => mul (g i l) (h l j))).
  rewrite at_assign by assumption. unfold dot_. rewrite sum_up_total. apply total_ext. intros l Hl. rewrite Eg, Eh by lia. reflexivity.
Qed.
Hypothesis mul_comm : forall x y, mul x y = mul y x.
Lemma scale_ok : forall a t u v n F G, 0 < n -> carries TScal u n F -> carries (TMat a t) v n G -> stored_if_fixed t ->
  exists lu lv w, u = Scals K T lu /\ v = Mats K T a t lv /\ scale K T zero mul a lu t lv = Ok w /\
    carries (TMat a (plain_ety (et_rows t) (et_cols t))) w n (fun k => on2 K T (v_mul K T zero add mul tmul) (F k) (G k)) /\
    carries (TMat a (plain_ety (et_rows t) (et_cols t))) w n (fun k => on2 K T (v_mul K T zero add mul tmul) (G k) (F k)).
Proof.
  intros a t u v n F G Hn HF HG St. destruct (carries_scal _ _ _ u n F HF) as (lu & -> & Lu & Qu). destruct (carries_mat _ _ _ a t v n G HG) as (lv & -> & Lv & Ov & Qv).
  exists lu, lv. set (t' := plain_ety (et_rows t) (et_cols t)).
  assert (Fin : forall g : K -> mat -> mat, (forall k s y, nth_error lu k = Some s -> nth_error lv k = Some y -> mat_ok t' (g s y) /\ m_rows K (g s y) = m_rows K y /\ m_cols K (g s y) = m_cols K y /\
      forall i j, i < m_rows K y -> j < m_cols K y -> at_ t' (g s y) i j = mul s (at_ t y i j)) ->
    carries (TMat a t') (Mats K T a t' (map (fun p => g (fst p) (snd p)) (combine lu lv))) n (fun k => on2 K T (v_mul K T zero add mul tmul) (F k) (G k)) /\
    carries (TMat a t') (Mats K T a t' (map (fun p => g (fst p) (snd p)) (combine lu lv))) n (fun k => on2 K T (v_mul K T zero add mul tmul) (G k) (F k))).
  { intros g Hg. rewrite <- Lu. split; (apply (zip_mat K T zero a t' _ _ lu lv g); [congruence|]; intros k s y Es Ey; destruct (Hg k s y Es Ey) as (O & D1 & D2 & E); split; [exact O|]; rewrite (Qu k s Es); destruct (Qv k y Ey) as (h & EG & Eh); rewrite EG;
      cbn [on2 v_mul]; rewrite D1, D2; (destruct a; (eexists; split; [reflexivity|]; intros i j Hi Hj; rewrite E, Eh by assumption; reflexivity))). }
  unfold scale. unfold stored_if_fixed in St. destruct (fixed t) as [[r c]|] eqn:Ef.
  - rewrite Lu, Lv, (lt_b n Hn), Nat.eqb_refl. cbn [andb lf_assert bind].
    pose proof (memory_chunks K r c lv (data_lengths K t r c lv Ef Ov)) as MC. rewrite Lv in MC. rewrite MC.
    eexists. split; [reflexivity|]. split; [reflexivity|]. split; [reflexivity|].
    assert (E : refill K r c n (concat (map (fun p => map (fun x => mul x (fst p)) (snd p)) (combine lu (map (m_data K) lv)))) =
      map (fun p => (fun s y => mkMat K r c (map (fun x => mul x s) (m_data K y))) (fst p) (snd p)) (combine lu lv)).
    { assert (Q : combine lu (map (m_data K) lv) = map (fun p => (fst p, m_data K (snd p))) (combine lu lv)) by (clear; revert lv; induction lu; intros [|y v]; cbn; congruence).
      rewrite Q, map_map. cbn [fst snd]. unfold refill. replace n with (length (map (fun p => map (fun x => mul x (fst p)) (m_data K (snd p))) (combine lu lv))) by (rewrite map_length, combine_length; lia).
      rewrite chunks_concat; [rewrite map_map; reflexivity|]. apply Forall_forall. intros d I. apply in_map_iff in I. destruct I as ([s y] & <- & I). rewrite map_length. cbn [fst snd].
      exact (proj1 (Forall_forall _ _) (data_lengths K t r c lv Ef Ov) y (in_combine_r _ _ _ _ I)). }
    rewrite E. destruct (fixed_fields t r c Ef) as (F1 & F2). apply (Fin (fun s y => mkMat K r c (map (fun x => mul x s) (m_data K y)))). intros k s y Es Ey. pose proof (proj1 (Forall_forall _ _) Ov y (nth_error_In _ _ Ey)) as Oy. destruct (fixed_dims K t r c y Ef Oy) as (Y1 & Y2 & Y3).
    split. { unfold t'. rewrite F1, F2. split; [reflexivity|]. split; [reflexivity|]. cbn [m_data m_rows m_cols]. rewrite map_length. exact Y3. }
    split; [symmetry; exact Y1|]. split; [symmetry; exact Y2|]. intros i j Hi Hj. rewrite Y1 in Hi. rewrite Y2 in Hj. rewrite (at_map t' r c _ (fun x => mul x s) i j Y3 Hi Hj). rewrite mul_comm. f_equal. unfold t'. rewrite F1, F2. apply at_stored; assumption.
  - rewrite (loop2_ok _ _ _ _ (fun s y => assign t' (m_rows K y) (m_cols K y) (fun i j => mul s (at_ t y i j)))) by (congruence || reflexivity).
    cbn [bind]. eexists. split; [reflexivity|]. split; [reflexivity|]. split; [reflexivity|]. apply (Fin (fun s y => assign t' (m_rows K y) (m_cols K y) (fun i j => mul s (at_ t y i j)))). intros k s y Es Ey. pose proof (proj1 (Forall_forall _ _) Ov y (nth_error_In _ _ Ey)) as (O1 & O2 & _).
    split; [apply assign_ok; assumption|]. split; [reflexivity|]. split; [reflexivity|]. intros i j Hi Hj. apply at_assign; assumption.
Qed.

(** *** Expressions *)
Variable D : ent -> list Reals.Rdefinitions.R -> Prop.
Lemma represents_carries : forall mf t F, represents K T zero D mf t F <->
  (forall e pts, pts <> [] -> (forall p, In p pts -> D e p) -> exists v, mf e pts = Ok v /\ carries t v (length pts) (fun k => match nth_error pts k with Some p => F e p | None => None end)).
Proof.
  intros mf t F. split; intros H e pts N I.
  - destruct (H e pts N I) as (v & E & Ht & Hs & Hv). exists v. split; [exact E|]. split; [exact Ht|]. split; [exact Hs|]. intros k Hk. destruct (nth_error_lt _ pts k Hk) as (p & Ep). rewrite Ep. exact (Hv k p Ep).
  - destruct (H e pts N I) as (v & E & Ht & Hs & Hv). exists v. split; [exact E|]. split; [exact Ht|]. split; [exact Hs|]. intros k p Ep. assert (Hk : k < length pts) by (apply nth_error_Some; rewrite Ep; discriminate).
    destruct (Hv k Hk) as (w & d & A). rewrite Ep in A. exists w, d. exact A.
Qed.
Lemma carries_ext : forall t v n F G, (forall k, k < n -> F k = G k) -> carries t v n F -> carries t v n G.
Proof. intros t v n F G E (A & B & C). split; [exact A|]. split; [exact B|]. intros k Hk. rewrite <- (E k Hk). auto. Qed.

Theorem expressions : forall env (F : nat -> ent -> list Reals.Rdefinitions.R -> pval) G,
  (forall n, represents K T zero D (env n) (G n) (fun e p => Some (F n e p))) ->
  forall x t, typed G x t -> (forall e p, D e p -> exists w, meaning K T zero add sub mul neg cj tadd tsub tmul tneg F x e p = Some w) ->
  represents K T zero D (mesh_function K T zero add sub mul neg cj tadd tsub tmul tneg env x) t (meaning K T zero add sub mul neg cj tadd tsub tmul tneg F x).
Proof.
  intros env F G HE. set (M := meaning K T zero add sub mul neg cj tadd tsub tmul tneg F).
  assert (D1 : forall op x, (forall e p, D e p -> exists w, on1 K T op (M x e p) = Some w) -> forall e p, D e p -> exists w, M x e p = Some w).
  { intros op x H e p HD. destruct (H e p HD) as (w & E). destruct (M x e p); [eauto|discriminate]. }
  assert (D2 : forall op x y, (forall e p, D e p -> exists w, on2 K T op (M x e p) (M y e p) = Some w) -> (forall e p, D e p -> exists w, M x e p = Some w) /\ (forall e p, D e p -> exists w, M y e p = Some w)).
  { intros op x y H. split; intros e p HD; destruct (H e p HD) as (w & E); destruct (M x e p); try discriminate; destruct (M y e p); try discriminate; eauto. }
  assert (U : forall op f t t' x, (forall e p, D e p -> exists w, on1 K T op (M x e p) = Some w) -> represents K T zero D f t (M x) ->
    forall g, (forall v n H, 0 < n -> carries t v n H -> (forall k, k < n -> exists w, on1 K T op (H k) = Some w) -> exists w, g v = Ok w /\ carries t' w n (fun k => on1 K T op (H k))) ->
    represents K T zero D (MeshFunctionUnary K T g f) t' (fun e p => on1 K T op (M x e p))).
  { intros op f t t' x Df Hf g Hg. rewrite represents_carries in *. intros e pts N I. destruct (Hf e pts N I) as (v & Ev & Cv).
    destruct (Hg v (length pts) _ ltac:(destruct pts; [contradiction|cbn; lia]) Cv) as (w & Ew & Cw).
    { intros k Hk. destruct (nth_error_lt _ pts k Hk) as (p & Ep). rewrite Ep. apply Df. apply I. exact (nth_error_In _ _ Ep). }
    exists w. split; [unfold MeshFunctionUnary; rewrite Ev; exact Ew|]. eapply carries_ext; [|exact Cw]. cbn beta. intros k Hk. destruct (nth_error pts k); reflexivity. }
  assert (B : forall op f1 f2 t1 t2 t' x y, (forall e p, D e p -> exists w, on2 K T op (M x e p) (M y e p) = Some w) -> represents K T zero D f1 t1 (M x) -> represents K T zero D f2 t2 (M y) ->
    forall g, (forall u v n H H', 0 < n -> carries t1 u n H -> carries t2 v n H' -> (forall k, k < n -> exists w, on2 K T op (H k) (H' k) = Some w) ->
      exists w, g u v = Ok w /\ carries t' w n (fun k => on2 K T op (H k) (H' k))) ->
    represents K T zero D (MeshFunctionBinary K T g f1 f2) t' (fun e p => on2 K T op (M x e p) (M y e p))).
  { intros op f1 f2 t1 t2 t' x y Df H1 H2 g Hg. rewrite represents_carries in *. intros e pts N I. destruct (H1 e pts N I) as (u & Eu & Cu). destruct (H2 e pts N I) as (v & Ev & Cv).
    destruct (Hg u v (length pts) _ _ ltac:(destruct pts; [contradiction|cbn; lia]) Cu Cv) as (w & Ew & Cw).
    { intros k Hk. destruct (nth_error_lt _ pts k Hk) as (p & Ep). rewrite Ep. apply Df. apply I. exact (nth_error_In _ _ Ep). }
    exists w. split; [unfold MeshFunctionBinary; rewrite Eu; cbn [bind]; rewrite Ev; exact Ew|]. eapply carries_ext; [|exact Cw]. cbn beta. intros k Hk. destruct (nth_error pts k); reflexivity. }
  intros x t Ty. induction Ty as [n|a t Ha IHa|a Ha IHa|a t Ha IHa NE V|a b t Ha IHa|a t Ha IHa|a Ha IHa|a b t Ha IHa
    |a b Ha IHa Hb IHb|a b r t1 t2 Ha IHa Hb IHb S|a b Ha IHa Hb IHb|a b Ha IHa Hb IHb|a b r t1 t2 Ha IHa Hb IHb S|a b Ha IHa Hb IHb
    |a b Ha IHa Hb IHb|a b t1 t2 Ha IHa Hb IHb|a b t1 t2 Ha IHa Hb IHb S|a b r t Ha IHa Hb IHb S|a b r t Ha IHa Hb IHb S]; intros Df; cbn [mesh_function];
    try (pose proof (D1 _ _ Df) as Da; specialize (IHa Da)); try (destruct (D2 _ _ _ Df) as (Da & Db); specialize (IHa Da); specialize (IHb Db)).
  - apply HE.
  - apply (U _ _ _ _ a Df IHa). intros. apply minus_ok; assumption.
  - apply (U _ _ _ _ a Df IHa). intros. apply norm_scal_ok; assumption.
  - apply (U _ _ _ _ a Df IHa). intros. apply (norm_vec_ok t); assumption.
  - apply (U _ _ _ _ a Df IHa). intros. apply transpose_ok; assumption.
  - apply (U _ _ _ _ a Df IHa). intros. apply adjoint_ok; assumption.
  - apply (U _ _ _ _ a Df IHa). intros. apply conj_scal_ok; assumption.
  - apply (U _ _ _ _ a Df IHa). intros. apply conj_mat_ok; assumption.
  - apply (B _ _ _ _ _ _ a b Df IHa IHb). intros u v n H H' Hn Cu Cv Q. destruct (carries_scal _ _ _ u n H Cu) as (lu & -> & Lu & Qu). destruct (carries_scal _ _ _ v n H' Cv) as (lv & -> & Lv & Qv). cbn [op_plus]. apply zip_scal; auto.
  - apply (B _ _ _ _ _ _ a b Df IHa IHb). intros u v n H H' Hn Cu Cv Q. destruct (coefficientwise_ok add tadd r t1 t2 u v n H H' Hn Cu Cv S Q) as (lu & lv & w & -> & -> & E & C). exists w. split; [|exact C]. cbn [op_plus]. rewrite eqb_reflx. exact E.
  - apply (B _ _ _ _ _ _ a b Df IHa IHb). intros u v n H H' Hn Cu Cv Q. destruct (carries_other _ _ _ u n H Cu) as (lu & -> & Lu & Qu). destruct (carries_other _ _ _ v n H' Cv) as (lv & -> & Lv & Qv). cbn [op_plus]. apply zip_other; auto.
  - apply (B _ _ _ _ _ _ a b Df IHa IHb). intros u v n H H' Hn Cu Cv Q. destruct (carries_scal _ _ _ u n H Cu) as (lu & -> & Lu & Qu). destruct (carries_scal _ _ _ v n H' Cv) as (lv & -> & Lv & Qv). cbn [op_sub]. apply zip_scal; auto.
  - apply (B _ _ _ _ _ _ a b Df IHa IHb). intros u v n H H' Hn Cu Cv Q. destruct (coefficientwise_ok sub tsub r t1 t2 u v n H H' Hn Cu Cv S Q) as (lu & lv & w & -> & -> & E & C). exists w. split; [|exact C]. cbn [op_sub]. rewrite eqb_reflx. exact E.
  - apply (B _ _ _ _ _ _ a b Df IHa IHb). intros u v n H H' Hn Cu Cv Q. destruct (carries_other _ _ _ u n H Cu) as (lu & -> & Lu & Qu). destruct (carries_other _ _ _ v n H' Cv) as (lv & -> & Lv & Qv). cbn [op_sub]. apply zip_other; auto.
  - apply (B _ _ _ _ _ _ a b Df IHa IHb). intros u v n H H' Hn Cu Cv Q. destruct (carries_scal _ _ _ u n H Cu) as (lu & -> & Lu & Qu). destruct (carries_scal _ _ _ v n H' Cv) as (lv & -> & Lv & Qv). cbn [op_times]. apply zip_scal; auto.
  - apply (B _ _ _ _ _ _ a b Df IHa IHb). intros u v n H H' Hn Cu Cv Q. destruct (product_ok t1 t2 u v n H H' Cu Cv Q Hn) as (lu & lv & w & -> & -> & E & C). exists w. split; [exact E|exact C].
  - apply (B _ _ _ _ _ _ a b Df IHa IHb). intros u v n H H' Hn Cu Cv Q.
    assert (QQ : forall k, k < n -> on2 K T (v_mul K T zero add mul tmul) (H k) (H' k) = on2 K T (v_both K T mul tmul) (H k) (H' k)).
    { intros k Hk. destruct (carries_mat _ _ _ _ _ _ _ _ Cu) as (lu & _ & Lu & _ & Qu). destruct (carries_mat _ _ _ _ _ _ _ _ Cv) as (lv & _ & Lv & _ & Qv).
      destruct (nth_error_lt _ lu k ltac:(lia)) as (x & Ex). destruct (nth_error_lt _ lv k ltac:(lia)) as (y & Ey). destruct (Qu k x Ex) as (f & -> & _). destruct (Qv k y Ey) as (g & -> & _). reflexivity. }
    destruct (coefficientwise_ok mul tmul true t1 t2 u v n H H' Hn Cu Cv S) as (lu & lv & w & -> & -> & E & C). { intros k Hk. rewrite <- QQ by exact Hk. auto. }
    exists w. split; [exact E|]. eapply carries_ext; [|exact C]. intros k Hk. symmetry. exact (QQ k Hk).
  - apply (B _ _ _ _ _ _ a b Df IHa IHb). intros u v n H H' Hn Cu Cv Q. destruct (scale_ok r t u v n H H' Hn Cu Cv S) as (lu & lv & w & -> & -> & E & C & _). exists w. split; [exact E|exact C].
  - apply (B _ _ _ _ _ _ a b Df IHa IHb). intros u v n H H' Hn Cu Cv Q. destruct (scale_ok r t v u n H' H Hn Cv Cu S) as (lu & lv & w & -> & -> & E & _ & C). exists w. split; [|exact C]. destruct r; exact E.
Qed.
End Ops.
