(** Words, keywords and the combinators of grammars: complete and sound. *)
From Coq Require Import String Ascii List Arith NArith ZArith Bool Lia.
Import ListNotations.
From Verif Require Import Base MshModel MshSpec MshProofs.
Local Open Scope list_scope.
Local Open Scope nat_scope.

(** *** Words *)
Definition word_value (b : chars) : N := fold_right (fun c v => (256 * v + N_of_ascii c)%N) 0%N b.
Lemma N_of_ascii_lt : forall c, (N_of_ascii c < 256)%N.
Proof. intro c. destruct c as [[] [] [] [] [] [] [] []]; vm_compute; reflexivity. Qed.
Lemma bytes_length : forall n v, length (bytes n v) = n.
Proof. induction n as [|n IH]; intro v; cbn [bytes length]; [reflexivity|]. now rewrite IH. Qed.
Lemma bytes_value : forall n v, (v < 256 ^ N.of_nat n)%N -> word_value (bytes n v) = v.
Proof.
  induction n as [|n IH]; intros v H; cbn [bytes].
  - change (256 ^ N.of_nat 0)%N with 1%N in H. cbn. lia.
  - rewrite Nat2N.inj_succ, N.pow_succ_r' in H. cbn [word_value fold_right]. fold (word_value (bytes n (v / 256))). rewrite IH.
    + rewrite N_ascii_embedding by (apply N.mod_lt; discriminate). rewrite <- N.div_mod'. reflexivity.
    + apply N.div_lt_upper_bound; [discriminate|exact H].
Qed.
Lemma value_bytes : forall b, bytes (length b) (word_value b) = b /\ (word_value b < 256 ^ N.of_nat (length b))%N.
Proof.
  induction b as [|c b [IH1 IH2]]; [split; reflexivity|]. cbn [length bytes word_value fold_right]. fold (word_value b).
  assert (Hc := N_of_ascii_lt c).
  assert (E1 : ((256 * word_value b + N_of_ascii c) mod 256 = N_of_ascii c)%N).
  { rewrite N.add_comm, (N.mul_comm 256). rewrite N.mod_add by discriminate. now apply N.mod_small. }
  assert (E2 : ((256 * word_value b + N_of_ascii c) / 256 = word_value b)%N).
  { rewrite N.add_comm, (N.mul_comm 256). rewrite N.div_add by discriminate. rewrite N.div_small by exact Hc. reflexivity. }
  rewrite E1, E2, IH1, ascii_N_embedding. split; [reflexivity|]. rewrite Nat2N.inj_succ, N.pow_succ_r'. lia.
Qed.
Lemma word_read : forall big n v s r, wordf big n v s -> word false big n (s ++ r) = Success v r.
Proof.
  intros big n v s r [Hv ->]. unfold word, pre. cbv zeta. match goal with |- context [length (?x ++ r)] => set (b := x) end.
  assert (Hl : length b = n) by (unfold b; destruct big; [rewrite rev_length|]; apply bytes_length).
  rewrite app_length, Hl. destruct (Nat.ltb_spec (n + length r) n) as [K|_]; [lia|].
  replace (firstn n (b ++ r)) with b by (rewrite <- Hl at 1; now rewrite firstn_app, firstn_all, Nat.sub_diag, firstn_O, app_nil_r).
  replace (skipn n (b ++ r)) with r by (rewrite <- Hl at 1; now rewrite skipn_app, skipn_all, Nat.sub_diag). f_equal. fold (word_value (if big then rev b else b)).
  replace (if big then rev b else b) with (bytes n v) by (unfold b; destruct big; [now rewrite rev_involutive|reflexivity]).
  now apply bytes_value.
Qed.
Lemma word_sound : forall big n, sd (word false big n) (wordf big n).
Proof.
  intros big n s v r H. unfold word, pre in H. destruct (Nat.ltb_spec (length s) n) as [|Hl]; [discriminate H|]. injection H as <- <-.
  exists (firstn n s). split; [symmetry; apply firstn_skipn|]. 
  match goal with |- wordf big n (fold_right _ _ ?x) _ => set (b := x); fold (word_value b) end.
  assert (Hb : length b = n) by (unfold b; destruct big; [rewrite rev_length|]; rewrite firstn_length; lia).
  destruct (value_bytes b) as [E1 E2]. rewrite Hb in E1, E2. split; [exact E2|]. unfold b in *. destruct big; [transitivity (rev (rev (firstn n s))); [now rewrite rev_involutive|]; f_equal|]; symmetry; exact E1.
Qed.
Lemma to_int_mod : forall z, (- 2 ^ 31 <= z < 2 ^ 31)%Z -> to_int (Z.to_N (z mod 2 ^ 32)) = z.
Proof.
  intros z H. unfold to_int. assert (Hm := Z.mod_pos_bound z (2 ^ 32) eq_refl).
  destruct (Z.ltb_spec z 0) as [Hz|Hz].
  - assert (E : (z mod 2 ^ 32 = z + 2 ^ 32)%Z) by (rewrite <- (Z.mod_add z 1 (2 ^ 32)) by discriminate; apply Z.mod_small; lia).
    rewrite E. destruct (N.ltb_spec (Z.to_N (z + 2 ^ 32)) (2 ^ 31)) as [K|K]; lia.
  - rewrite (Z.mod_small z (2 ^ 32)) by lia. destruct (N.ltb_spec (Z.to_N z) (2 ^ 31)) as [K|K]; lia.
Qed.
Lemma mod_to_int : forall n, (n < 2 ^ 32)%N -> (- 2 ^ 31 <= to_int n < 2 ^ 31)%Z /\ Z.to_N (to_int n mod 2 ^ 32) = n.
Proof.
  intros n H. unfold to_int. destruct (N.ltb_spec n (2 ^ 31)) as [K|K].
  - split; [lia|]. rewrite Z.mod_small by lia. lia.
  - split; [lia|]. assert (E : ((Z.of_N n - 2 ^ 32) mod 2 ^ 32 = Z.of_N n)%Z) by (rewrite <- (Z.mod_add _ 1 (2 ^ 32)) by discriminate; rewrite Z.mod_small; lia).
    rewrite E. lia.
Qed.
Lemma dword_read : forall big z s r, intf big z s -> dword false big (s ++ r) = Success z r.
Proof.
  intros big z s r [Hz Hw]. unfold dword, map_p, and_then. rewrite (word_read big 4 _ s r Hw). unfold ret. now rewrite to_int_mod.
Qed.
Lemma dword_sound : forall big, sd (dword false big) (intf big).
Proof.
  intros big s z r H. unfold dword, map_p, and_then in H. destruct (word false big 4 s) as [v r'| | |] eqn:E; try discriminate H. unfold ret in H. injection H as <- <-.
  apply word_sound in E. destruct E as (t & -> & Hv). exists t. split; [reflexivity|].
  assert (Hb : (v < 2 ^ 32)%N) by (destruct Hv as [Hv _]; exact Hv). destruct (mod_to_int v Hb) as [H1 H2]. split; [exact H1|]. now rewrite H2.
Qed.

(** *** Keywords *)
Lemma prefix_app : forall t r, prefix t (t ++ r) = Some r.
Proof. induction t as [|c t IH]; intro r; cbn [prefix app]; [reflexivity|]. now rewrite Ascii.eqb_refl. Qed.
Lemma prefix_some : forall t s r, prefix t s = Some r -> s = t ++ r.
Proof.
  induction t as [|c t IH]; intros s r H; cbn [prefix] in H; [injection H as ->; reflexivity|].
  destruct s as [|d s]; [discriminate H|]. destruct (Ascii.eqb_spec c d) as [->|]; [|discriminate H]. cbn [app]. f_equal. now apply IH.
Qed.
Lemma lit_false_read : forall t r, lit false t (t ++ r) = Success tt r.
Proof. intros. unfold lit, pre. now rewrite prefix_app. Qed.
Lemma lit_read : forall t s r, afterk blank t s -> head_ok t -> t <> [] -> lit true t (s ++ r) = Success tt r.
Proof.
  intros t s r (w & -> & Hw) Ht Hne. unfold lit, pre. rewrite <- app_assoc, skip_blank by exact Hw. rewrite skip_head.
  - now rewrite prefix_app.
  - destruct t as [|c t]; [congruence|]. exact Ht.
Qed.
Lemma lit_false_sound : forall t s u r, lit false t s = Success u r -> s = t ++ r.
Proof. intros t s u r H. unfold lit, pre in H. destruct (prefix t s) as [q|] eqn:E; [|discriminate H]. injection H as _ <-. now apply prefix_some. Qed.
Lemma lit_sound : forall t s u r, lit true t s = Success u r -> exists v, s = v ++ r /\ afterk blank t v.
Proof.
  intros t s u r H. unfold lit, pre in H. destruct (prefix t (skip s)) as [q|] eqn:E; [|discriminate H]. injection H as _ <-. apply prefix_some in E.
  destruct (skip_spec s) as (w & Es & Hw & _). rewrite E in Es. exists (w ++ t). split; [now rewrite <- app_assoc|]. exists w. auto.
Qed.

(** *** Grammars *)
(** What [f] writes is read if [okr] holds of what follows; then [okl] holds. *)
Definition reads {A} (okl okr : chars -> Prop) (p : parser A) (f : format A) : Prop := forall a s r, f a s -> okr r -> okl (s ++ r) /\ p (s ++ r) = Success a r.
Definition bindf {A B} (f : format A) (g : A -> format B) : format B := fun b s => exists a s1 s2, s = s1 ++ s2 /\ f a s1 /\ g a b s2.
Definition retf {A} (x : A) : format A := fun b s => b = x /\ s = [].
Definition repf {A} (n : nat) (f : format A) : format (list A) := fun l s => length l = n /\ listf f l s.
Lemma reads_bind : forall A B (p : parser A) (q : A -> parser B) f g ol om or, reads ol om p f -> (forall a, reads om or (q a) (g a)) -> reads ol or (and_then p q) (bindf f g).
Proof.
  intros A B p q f g ol om or Hp Hq b s r (a & s1 & s2 & -> & Hf & Hg) Hr. destruct (Hq a b s2 r Hg Hr) as [H1 H2]. rewrite <- app_assoc.
  destruct (Hp a s1 (s2 ++ r) Hf H1) as [H3 H4]. split; [exact H3|]. unfold and_then. rewrite H4. exact H2.
Qed.
Lemma sd_bind : forall A B (p : parser A) (q : A -> parser B) f g, sd p f -> (forall a, sd (q a) (g a)) -> sd (and_then p q) (bindf f g).
Proof.
  intros A B p q f g Hp Hq s b r H. unfold and_then in H. destruct (p s) as [a s'| | |] eqn:E; try discriminate H.
  destruct (Hp _ _ _ E) as (t1 & -> & H1). destruct (Hq a _ _ _ H) as (t2 & -> & H2). exists (t1 ++ t2). split; [now rewrite app_assoc|].
  exists a, t1, t2. auto.
Qed.
Lemma reads_must : forall A (p : parser A) f ol or, reads ol or p f -> reads ol or (must p) f.
Proof. intros A p f ol or H a s r Hf Hr. destruct (H a s r Hf Hr) as [H1 H2]. split; [exact H1|]. unfold must. now rewrite H2. Qed.
Lemma sd_must : forall A (p : parser A) f, sd p f -> sd (must p) f.
Proof. intros A p f H s a r E. apply H. unfold must in E. destruct (p s); congruence. Qed.
Lemma reads_on_error : forall A (p : parser A) f ol or, reads ol or p f -> reads ol or (on_error p) f.
Proof. intros A p f ol or H a s r Hf Hr. destruct (H a s r Hf Hr) as [H1 H2]. split; [exact H1|]. unfold on_error. now rewrite H2. Qed.
Lemma sd_on_error : forall A (p : parser A) f, sd p f -> sd (on_error p) f.
Proof. intros A p f H s a r E. apply H. unfold on_error in E. destruct (p s); congruence. Qed.
Lemma reads_ret : forall A (x : A) ok, reads ok ok (ret x) (retf x).
Proof. intros A x ok a s r [-> ->] Hr. split; [exact Hr|reflexivity]. Qed.
Lemma sd_ret : forall A (x : A), sd (ret x) (retf x).
Proof. intros A x s a r H. injection H as -> ->. exists []. split; [reflexivity|]. split; reflexivity. Qed.
Lemma reads_weaken : forall A (p : parser A) (f g : format A) ol or, reads ol or p f -> (forall a s, g a s -> f a s) -> reads ol or p g.
Proof. intros A p f g ol or H K a s r Hg Hr. apply H; auto. Qed.
Lemma sd_weaken : forall A (p : parser A) (f g : format A), sd p f -> (forall a s, f a s -> g a s) -> sd p g.
Proof. intros A p f g H K s a r E. destruct (H _ _ _ E) as (t & -> & Hf). exists t. auto. Qed.
Lemma listf_nil : forall A (f : format A) l s, length l = 0 -> listf f l s <-> l = [] /\ s = [].
Proof.
  intros A f l s H. destruct l; [|discriminate H]. split.
  - intros (ss & H1 & ->). inversion H1; subst. auto.
  - intros [_ ->]. exists []. split; [constructor|reflexivity].
Qed.
Lemma listf_cons : forall A (f : format A) x l s, listf f (x :: l) s <-> exists s1 s2, s = s1 ++ s2 /\ f x s1 /\ listf f l s2.
Proof.
  intros A f x l s. split.
  - intros (ss & H1 & ->). inversion H1 as [|? y ? ss' Hx Hl]; subst. exists y, (concat ss'). split; [reflexivity|]. split; [exact Hx|]. exists ss'. auto.
  - intros (s1 & s2 & -> & Hx & (ss & Hl & ->)). exists (s1 :: ss). split; [constructor; assumption|reflexivity].
Qed.
Lemma reads_repeat : forall A (p : parser A) f n ok, reads ok ok p f -> reads ok ok (repeat_ n p) (repf n f).
Proof.
  intros A p f n ok H. induction n as [|n IH].
  - intros l s r [Hl Hf] Hr. apply listf_nil in Hf; [|exact Hl]. destruct Hf as [-> ->]. split; [exact Hr|reflexivity].
  - cbn [repeat_]. intros l s r [Hl Hf] Hr. destruct l as [|x l]; [discriminate Hl|]. apply listf_cons in Hf. destruct Hf as (s1 & s2 & -> & Hx & Hs).
    assert (K : repf n f l s2) by (split; [now injection Hl|exact Hs]). destruct (IH l s2 r K Hr) as [H1 H2]. rewrite <- app_assoc.
    destruct (H x s1 (s2 ++ r) Hx H1) as [H3 H4]. split; [exact H3|]. unfold and_then at 1. rewrite H4. unfold and_then. rewrite H2. reflexivity.
Qed.
Lemma sd_repeat : forall A (p : parser A) f n, sd p f -> sd (repeat_ n p) (repf n f).
Proof.
  intros A p f n H. induction n as [|n IH]; intros s l r E; cbn [repeat_] in E.
  - injection E as <- <-. exists []. split; [reflexivity|]. split; [reflexivity|]. apply listf_nil; [reflexivity|auto].
  - unfold and_then at 1 in E. destruct (p s) as [x s'| | |] eqn:Ep; try discriminate E. unfold and_then in E. destruct (repeat_ n p s') as [l' r'| | |] eqn:El; try discriminate E.
    injection E as <- <-. destruct (H _ _ _ Ep) as (t1 & -> & Hx). destruct (IH _ _ _ El) as (t2 & -> & Hn & Hl).
    exists (t1 ++ t2). split; [now rewrite app_assoc|]. split; [cbn; congruence|]. apply listf_cons. exists t1, t2. auto.
Qed.

(** With skipping of white space. *)
Lemma after_read : forall A (p : parser A) (f : format A), (forall a s r, f a s -> head_ok (s ++ r)) -> (forall a s r, f a s -> okt r -> p (s ++ r) = Success a r) ->
  reads okt okt (lexeme p) (after gap f).
Proof.
  intros A p f Hh Hp a s r (w & t & -> & [Hw Hne] & Hf) Hr. split.
  - destruct w as [|c w]; [congruence|]. cbn. apply is_space_white. now inversion Hw.
  - unfold lexeme. rewrite <- app_assoc, skip_blank by exact Hw. rewrite skip_head by (eapply Hh; exact Hf). now apply Hp.
Qed.
Lemma after_sound : forall A (p : parser A) f, sd p f -> sd (lexeme p) (after blank f).
Proof.
  intros A p f H s a r E. unfold lexeme in E. destruct (H _ _ _ E) as (t & Et & Hf). destruct (skip_spec s) as (w & Es & Hw & _). rewrite Et in Es.
  exists (w ++ t). split; [now rewrite <- app_assoc|]. exists w, t. auto.
Qed.
Lemma afterk_gap_ok : forall t s r, afterk gap t s -> okt (s ++ r).
Proof. intros t s r (w & -> & [Hw Hne]). destruct w as [|c w]; [congruence|]. cbn. apply is_space_white. now inversion Hw. Qed.
Lemma afterk_gap_blank : forall t s, afterk gap t s -> afterk blank t s.
Proof. intros t s (w & -> & [Hw _]). exists w. auto. Qed.

Lemma num_nodes_counts : forall t n, num_nodes_of t = Some n <-> In (t, n) node_counts.
Proof.
  intros t n. split.
  - intro H. unfold num_nodes_of in H.
    repeat match type of H with context [match ?x with _ => _ end] => destruct x; try discriminate H end; injection H as <-; vm_compute; tauto.
  - intro H. unfold node_counts in H. cbn [In] in H. repeat destruct H as [H|H]; try (injection H as <- <-; reflexivity). destruct H.
Qed.
