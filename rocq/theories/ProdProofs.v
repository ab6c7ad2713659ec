(** C93: trace elements and discontinuous elements. *)
From Coq Require Import Reals List Arith Lia Lra Bool.
Import ListNotations.
From Verif Require Import Base MeshModel MeshView DofModel DofSpec RefPatModel GeoModel GeoSpec Calc FeModel LagrModel FeSpec HierSpec FeProofs LagrProofs LagrProofs2 LagrProofs3
  AssembleModel FeToolsModel FeToolsSpec FeToolsProofs2 DpgModel ProdModel ProdSpec.
Local Open Scope R_scope.

(** * Constants *)
Lemma constant_counts : forall t, counts (constant_element t).
Proof.
  intros t. split.
  - intros x L. exists [1]. split; [|reflexivity]. cbn [constant_element fe_eval fe_el] in *. rewrite L. destruct t; reflexivity.
  - exists (fun c _ => if (c =? 0)%nat then 1%nat else 0%nat). split; [|destruct t; reflexivity].
    intros c i Hc _. cbn [constant_element fe_num2]. assert (L : (c <= 2)%nat) by (destruct t; cbn in Hc; lia).
    apply Nat.leb_le in L. rewrite L. reflexivity.
Qed.
Lemma constant_uniform : forall t, uniform_counts (constant_element t).
Proof. intros t c i _ _. reflexivity. Qed.
Lemma constant_cardinal : forall t, cardinal (constant_element t).
Proof.
  intros t. split; [reflexivity|]. split; [reflexivity|]. intros j p H. destruct j as [|[|j]]; try discriminate H. injection H as <-.
  exists [1]. split; [destruct t; reflexivity|]. intros i Hi. cbn in Hi. replace i with 0%nat by lia. reflexivity.
Qed.
Lemma constant_unity : forall t, partition_of_unity (constant_element t).
Proof.
  intros t x L. exists [1]. split; [|cbn; ring]. cbn [constant_element fe_eval fe_el] in *. rewrite L. destruct t; reflexivity.
Qed.
Lemma constant_complete : forall t, contained (constant_element t) (exponents t 0) /\ reproduces (constant_element t) (exponents t 0).
Proof.
  intros t. split.
  - intros i Hi. exists (fun _ => 1). intros x L. exists [1]. cbn [constant_element fe_eval fe_el fe_total] in *. replace i with 0%nat by lia.
    split; [rewrite L; destruct t; reflexivity|].
    destruct t; destruct x as [|a [|b [|]]]; try discriminate L; cbn; ring.
  - intros c x L. exists [1]. cbn [constant_element fe_eval fe_el] in *. split; [rewrite L; destruct t; reflexivity|].
    destruct t; destruct x as [|a [|b [|]]]; try discriminate L; cbn; ring.
Qed.
Lemma constant_gradients : forall t, t <> kPoint -> gradients_ok (constant_element t).
Proof.
  intros t T. destruct t; [congruence| | |].
  - apply (gradients_one _ (fun _ => [1]) (fun _ => [0])); try (intros; reflexivity).
    intros s i Hi. cbn [constant_element fe_total] in Hi. replace i with 0%nat by lia. cbn [nth]. qd_auto; ring.
  - apply (gradients_two _ (fun _ _ => [1]) (fun _ _ => [[0; 0]])); try (intros; reflexivity).
    { intros s t. split; [reflexivity|]. intros r [<-|[]]. reflexivity. }
    intros s t i Hi. cbn [constant_element fe_total] in Hi. replace i with 0%nat by lia. cbn [nth]. qd_auto; ring.
  - apply (gradients_two _ (fun _ _ => [1]) (fun _ _ => [[0; 0]])); try (intros; reflexivity).
    { intros s t. split; [reflexivity|]. intros r [<-|[]]. reflexivity. }
    intros s t i Hi. cbn [constant_element fe_total] in Hi. replace i with 0%nat by lia. cbn [nth]. qd_auto; ring.
Qed.
Theorem constant_ok : forall t, t <> kPoint -> let f := constant_element t in
  fe_el f = t /\ fe_degree f = 0%nat /\ counts f /\ uniform_counts f /\ cardinal f /\ partition_of_unity f /\
  contained f (exponents t 0) /\ reproduces f (exponents t 0) /\ gradients_ok f /\
  fe_num1 f 0 = Ok 1%nat /\ (forall v, length v = 1%nat -> fe_n2d f v = Ok v).
Proof.
  intros t T f. destruct (constant_complete t) as [C1 C2].
  split; [reflexivity|]. split; [reflexivity|]. split; [apply constant_counts|]. split; [apply constant_uniform|]. split; [apply constant_cardinal|].
  split; [apply constant_unity|]. split; [exact C1|]. split; [exact C2|]. split; [apply constant_gradients; exact T|]. split; [reflexivity|].
  intros v L. cbn. unfold identity_n2d. rewrite L. reflexivity.
Qed.

(** * Discontinuous elements *)
Theorem discontinuous_ok : forall f, let g := discontinuous_element f in
  fe_el g = fe_el f /\ fe_degree g = fe_degree f /\ fe_total g = fe_total f /\ interior_only g /\ uniform_counts g /\
  (forall x, fe_eval g x = fe_eval f x /\ fe_grad g x = fe_grad f x) /\ fe_nodes g = fe_nodes f /\ (forall v, fe_n2d g v = fe_n2d f v) /\
  (counts f -> counts g) /\ (cardinal f -> cardinal g) /\ (partition_of_unity f -> partition_of_unity g) /\
  (forall es, contained f es -> contained g es) /\ (forall es, reproduces f es -> reproduces g es) /\
  (gradients_ok f -> gradients_ok g) /\ (dual f -> dual g).
Proof.
  intros f g. split; [reflexivity|]. split; [reflexivity|]. split; [reflexivity|]. split.
  { split; [reflexivity|]. split; [reflexivity|]. intros c i Hc. destruct c; [lia|]. split; reflexivity. }
  split; [intros c i _ _; reflexivity|]. split; [intros x; split; reflexivity|]. split; [reflexivity|]. split; [reflexivity|]. split.
  { intros [C1 _]. split; [exact C1|]. exists (fun c _ => if (c =? 0)%nat then fe_total f else 0%nat). split; [intros; reflexivity|].
    unfold g. cbn [discontinuous_element fe_el fe_total]. destruct (fe_el f); cbn; lia. }
  split; [exact (fun H => H)|]. split; [exact (fun H => H)|]. split; [exact (fun _ H => H)|]. split; [exact (fun _ H => H)|]. split; [exact (fun H => H)|exact (fun H => H)].
Qed.

(** * Trace elements *)
Lemma top_ok : forall A n (l : list A), (n <= length l)%nat -> top n l = Ok (firstn n l).
Proof. intros A n l H. unfold top. apply Nat.leb_le in H. rewrite H. reflexivity. Qed.
Lemma nth_firstn_lt : forall A n (l : list A) i d, (i < n)%nat -> nth i (firstn n l) d = nth i l d.
Proof. induction n as [|n IH]; intros l i d H; [lia|]. destruct l as [|a l]; [reflexivity|]. destruct i; [reflexivity|]. cbn. apply IH. lia. Qed.
Lemma nth_error_firstn_lt : forall A n (l : list A) i x, nth_error (firstn n l) i = Some x -> nth_error l i = Some x /\ (i < n)%nat.
Proof. induction n as [|n IH]; intros l i x H; [destruct i; discriminate H|]. destruct l as [|a l]; [destruct i; discriminate H|]. destruct i; [split; [exact H|lia]|]. cbn in *. destruct (IH _ _ _ H). split; [assumption|lia]. Qed.
Lemma firstn_In_lt : forall A n (l : list A) x, In x (firstn n l) -> In x l.
Proof. intros A n l x H. rewrite <- (firstn_skipn n l). apply in_or_app. left. exact H. Qed.
Section Trace.
Variable f : srfe.
Hypothesis C : counts f.
Hypothesis U : uniform_counts f.
Let n0 := interior_num f.
Let g := trace_element f.
Lemma interior_is : fe_num1 f 0 = Ok n0 /\ fe_num2 f 0 0 = Ok n0 /\ (n0 <= fe_total f)%nat /\ fe_total f = (fe_total g + n0)%nat.
Proof.
  destruct (co_sub f C) as (n & Hn & T). assert (A : fe_num2 f 0 0 = Ok (n 0%nat 0%nat)) by (apply Hn; [lia|destruct (fe_el f); cbn; lia]).
  assert (B : fe_num1 f 0 = Ok (n 0%nat 0%nat)) by (rewrite <- A; apply U; [lia|destruct (fe_el f); cbn; lia]).
  assert (N : n0 = n 0%nat 0%nat) by (unfold n0, interior_num; rewrite B; reflexivity).
  rewrite N, A, B. split; [reflexivity|]. split; [reflexivity|].
  assert (L : (n 0 0 <= fe_total f)%nat).
  { rewrite T. rewrite Nat.add_1_r. cbn [seq map list_sum fold_right]. destruct (fe_el f); cbn; lia. }
  split; [exact L|]. unfold g. cbn [trace_element fe_total]. change (interior_num f) with n0. rewrite N. lia.
Qed.
Lemma trace_counts : counts g.
Proof.
  destruct interior_is as (A & B & L & T). split.
  - intros x Hx. destruct (co_eval f C x Hx) as (v & E & Lv). exists (firstn (fe_total g) v). split.
    + change (fe_eval g x) with (do v <- fe_eval f x; top (fe_total g) v). rewrite E. cbn [bind]. apply top_ok. rewrite Lv, T. lia.
    + rewrite firstn_length, Lv. lia.
  - destruct (co_sub f C) as (n & Hn & Tn). exists (fun c i => if (c =? 0)%nat then 0%nat else n c i). split.
    + intros c i Hc Hi. unfold g in *. cbn [trace_element fe_num2 fe_el] in *. destruct (c =? 0)%nat; [reflexivity|]. apply Hn; assumption.
    + assert (A' : n 0%nat 0%nat = n0). { assert (Q : fe_num2 f 0 0 = Ok (n 0%nat 0%nat)) by (apply Hn; [lia|destruct (fe_el f); cbn; lia]). congruence. }
      change (fe_el g) with (fe_el f). apply (Nat.add_cancel_r _ _ n0). rewrite <- T, Tn, <- A'. clear. destruct (fe_el f); cbn; lia.
Qed.
Lemma trace_uniform : uniform_counts g.
Proof. intros c i Hc Hi. unfold g in *. cbn [trace_element fe_num1 fe_num2 fe_el] in *. destruct (c =? 0)%nat; [reflexivity|]. apply U; assumption. Qed.
Lemma trace_values : forall x v, length x = dimension (fe_el f) -> fe_eval f x = Ok v -> exists z, length z = n0 /\ fe_eval g x = Ok (firstn (fe_total g) v) /\ v = firstn (fe_total g) v ++ z.
Proof.
  intros x v Hx E. destruct interior_is as (A & B & L & T). destruct (co_eval f C x Hx) as (v' & E' & Lv). rewrite E in E'. injection E' as <-.
  exists (skipn (fe_total g) v). split; [rewrite skipn_length; lia|]. split; [|symmetry; apply firstn_skipn].
  change (fe_eval g x) with (do v <- fe_eval f x; top (fe_total g) v). rewrite E. cbn [bind]. apply top_ok. rewrite Lv, T. lia.
Qed.
Lemma trace_cardinal : (forall p, In p (fe_nodes f) -> length p = dimension (fe_el f)) -> cardinal f -> cardinal g.
Proof.
  intros Np (K1 & K2 & K3). destruct interior_is as (A & B & L & T). split; [|split].
  - unfold g. cbn [trace_element fe_nodes fe_num_nodes]. rewrite firstn_length. change (interior_num f) with n0. lia.
  - unfold g. cbn [trace_element fe_num_nodes fe_total]. lia.
  - intros j p Hp. unfold g in Hp. cbn [trace_element fe_nodes] in Hp. apply nth_error_firstn_lt in Hp. destruct Hp as [Hp Hj]. destruct (K3 j p Hp) as (v & E & D).
    destruct (trace_values p v (Np p (nth_error_In _ _ Hp)) E) as (z & _ & E' & _). eexists. split; [exact E'|]. intros i Hi. rewrite nth_firstn_lt by exact Hi. apply D. lia.
Qed.
Lemma trace_gradients : gradients_ok f -> gradients_ok g.
Proof.
  intros G x Hx. change (fe_el g) with (fe_el f) in *. destruct interior_is as (A & B & L & T). destruct (G x Hx) as (J & E & LJ & RJ & p & Hp & Ln & D).
  exists (firstn (fe_total g) J). split; [change (fe_grad g x) with (do v <- fe_grad f x; top (fe_total g) v); rewrite E; cbn [bind]; apply top_ok; rewrite LJ, T; lia|].
  split; [rewrite firstn_length; lia|]. split; [intros r Hr; apply RJ; eapply (firstn_In_lt); exact Hr|].
  destruct (co_eval f C x Hx) as (v & Ev & Lv). destruct (trace_values x v Hx Ev) as (z & _ & Eg & _).
  unfold shape_functions in Hp. rewrite Ev in Hp. injection Hp as <-.
  exists (fun i => nth i (firstn (fe_total g) v) 0). split; [unfold shape_functions; rewrite Eg; reflexivity|]. split; [rewrite map_length, seq_length in *; exact Ln|].
  intros k Hk eps He. destruct (D k ltac:(lia) eps He) as (d & D0 & Dd). exists d. split; [exact D0|]. intros h q Lh Hh Hq.
  assert (Lp : length (plus x h) = dimension (fe_el f)) by (unfold plus; rewrite map_length, combine_length; lia).
  destruct (co_eval f C (plus x h) Lp) as (w & Ew & Lw). destruct (trace_values _ w Lp Ew) as (z' & _ & Eg' & _).
  unfold shape_functions in Hq. rewrite Eg' in Hq. injection Hq as <-. cbv beta.
  specialize (Dd h (fun i => nth i w 0) Lh Hh). unfold shape_functions in Dd. rewrite Ew in Dd. specialize (Dd eq_refl).
  rewrite !nth_firstn_lt by exact Hk.
  match goal with |- context [apply ?X h k] => replace (apply X h k) with (apply (map (fun j i => nth j (nth i J []) 0) (seq 0 (dimension (fe_el f)))) h k) end; [exact Dd|].
  unfold apply. f_equal. clear -Hk. revert h. induction (seq 0 (dimension (fe_el f))) as [|j l IH]; intros h; [reflexivity|]. destruct h as [|a h]; [reflexivity|].
  cbn [map combine fst snd]. rewrite IH. rewrite nth_firstn_lt by exact Hk. reflexivity.
Qed.
Lemma trace_no_interior : no_interior g.
Proof. split; reflexivity. Qed.
Lemma trace_n2d : fe_num_nodes f = fe_total f -> (forall v, length v = fe_num_nodes f -> fe_n2d f v = Ok v) -> forall v, length v = fe_num_nodes g -> fe_n2d g v = Ok v.
Proof.
  intros K2 N v Lv. destruct interior_is as (A & B & L & T). unfold g in *. cbn [trace_element fe_n2d fe_num_nodes fe_total] in *. change (interior_num f) with n0 in Lv, T |- *. rewrite Lv. rewrite Nat.eqb_refl. cbn [lf_assert bind].
  rewrite N by (rewrite app_length, repeat_length; lia). cbn [bind].
  rewrite top_ok by (rewrite app_length, repeat_length; lia). f_equal. rewrite firstn_app.
  replace (fe_total f - n0 - length v)%nat with 0%nat by lia. cbn [firstn]. rewrite app_nil_r. apply firstn_all2. lia.
Qed.
End Trace.
Theorem trace_ok' : forall f, counts f -> uniform_counts f -> let g := trace_element f in
  fe_el g = fe_el f /\ fe_degree g = fe_degree f /\ counts g /\ uniform_counts g /\ no_interior g /\
  (forall c i, (0 < c)%nat -> fe_num1 g c = fe_num1 f c /\ fe_num2 g c i = fe_num2 f c i) /\
  (forall x v, length x = dimension (fe_el f) -> fe_eval f x = Ok v -> exists w z, fe_eval g x = Ok w /\ v = w ++ z /\ fe_num1 f 0 = Ok (length z)) /\
  (gradients_ok f -> gradients_ok g) /\
  ((forall p, In p (fe_nodes f) -> length p = dimension (fe_el f)) -> cardinal f -> cardinal g).
Proof.
  intros f C U g. split; [reflexivity|]. split; [reflexivity|]. split; [exact (trace_counts f C U)|]. split; [exact (trace_uniform f U)|]. split; [exact (trace_no_interior f)|].
  split; [intros c i Hc; destruct c; [lia|]; split; reflexivity|]. split.
  { intros x v Hx E. destruct (trace_values f C U x v Hx E) as (z & Lz & Eg & Ev). exists (firstn (fe_total g) v), z. split; [exact Eg|]. split; [exact Ev|].
    rewrite Lz. apply (interior_is f C U). }
  split; [exact (trace_gradients f C U)|exact (trace_cardinal f C U)].
Qed.
