(** Parsing the files written for MATLAB. *)
From Coq Require Import String Ascii List Arith NArith ZArith QArith Qabs Bool Lia.
Import ListNotations.
From Verif Require Import Base MeshView MshModel MshSpec MshProofs RefineModel WriteModel WriteSpec WriteProofs WriteProofs2.
Local Open Scope list_scope.
Local Open Scope nat_scope.

Lemma step : forall A B (p : parser A) (q : A -> parser B) s a r, p s = Success a r -> and_then p q s = q a r.
Proof. intros A B p q s a r H. unfold and_then. rewrite H. reflexivity. Qed.
Lemma alt_l : forall A (p q : parser A) s a r, p s = Success a r -> alt p q s = Success a r.
Proof. intros A p q s a r H. unfold alt. rewrite H. reflexivity. Qed.
Lemma alt_r : forall A (p q : parser A) s, p s = Fail -> alt p q s = q s.
Proof. intros A p q s H. unfold alt. rewrite H. reflexivity. Qed.
Ltac next := erewrite step by reflexivity.

(** *** Repetition *)
Lemma star_items : forall A (p : parser A) (ok : chars -> Prop) (l : list (chars * A)) n r,
  Forall (fun x => (forall r, ok r -> p (fst x ++ r) = Success (snd x) r) /\ fst x <> [] /\ forall r, ok (fst x ++ r)) l ->
  ok r -> p r = Fail -> length l < n -> star_ n p (concat (map fst l) ++ r) = Success (map snd l) r.
Proof.
  intros A p ok l n r H Hr Hf. revert n. induction H as [|[t a] l (H1 & H2 & H3) H IH]; intros n Hn.
  - destruct n as [|n]; [lia|]. cbn [map concat app star_]. rewrite Hf. reflexivity.
  - destruct n as [|n]; [lia|]. cbn [map concat fst snd star_]. rewrite <- app_assoc. cbn [fst snd] in *.
    assert (Ho : ok (concat (map fst l) ++ r)). { destruct H as [|[t' a'] l' (_ & _ & K) _]; [exact Hr|]. cbn [map concat fst]. rewrite <- app_assoc. apply K. }
    pose proof (H1 _ Ho) as E1. unfold chars, parser in *. rewrite E1. rewrite IH by (cbn [length] in Hn; lia). reflexivity.
Qed.
Lemma concat_length : forall A (l : list (chars * A)), Forall (fun x => fst x <> []) l -> length l <= length (concat (map fst l)).
Proof.
  intros A l H. induction H as [|[t a] l H _ IH]; [reflexivity|]. cbn [map concat fst length]. rewrite app_length. cbn in H. destruct t; [congruence|]. cbn [length]. lia.
Qed.
Lemma star_reads : forall A (p : parser A) (ok : chars -> Prop) (l : list (chars * A)) r,
  Forall (fun x => (forall r, ok r -> p (fst x ++ r) = Success (snd x) r) /\ fst x <> [] /\ forall r, ok (fst x ++ r)) l ->
  ok r -> p r = Fail -> star p (concat (map fst l) ++ r) = Success (map snd l) r.
Proof.
  intros A p ok l r H Hr Hf. unfold star. apply (star_items A p ok l _ r H Hr Hf). rewrite app_length.
  pose proof (concat_length A l) as K. specialize (K (Forall_impl _ (fun x Hx => proj1 (proj2 Hx)) H)). lia.
Qed.
Lemma star_chars : forall f l r, Forall (fun c => f c = true) l -> match r with [] => True | c :: _ => f c = false end ->
  star (char_if false f) (l ++ r) = Success l r.
Proof.
  intros f l r H Hr.
  assert (K : forall n, length l < n -> star_ n (char_if false f) (l ++ r) = Success l r).
  { induction H as [|c l Hc H IH]; intros n Hn; destruct n as [|n]; try lia.
    - cbn [app star_]. unfold char_if at 1, pre. destruct r as [|c r]; [reflexivity|]. rewrite Hr. reflexivity.
    - cbn [app star_]. unfold char_if at 1, pre. rewrite Hc. rewrite IH by (cbn [length] in Hn; lia). reflexivity. }
  unfold star. apply K. rewrite app_length. lia.
Qed.

(** *** Words *)
Lemma white_blank : forall c, is_space c = true -> blank [c].
Proof. intros c H. constructor; [|constructor]. apply is_space_white. exact H. Qed.
Lemma letter_no_space : forall c, letter c = true -> is_space c = false.
Proof.
  intros c H. unfold letter in H. unfold is_space. destruct (Nat.leb_spec 9 (nat_of_ascii c)); destruct (Nat.leb_spec (nat_of_ascii c) 13); destruct (Nat.eqb_spec (nat_of_ascii c) 32); cbn [andb orb]; try reflexivity; exfalso;
  apply orb_true_iff in H; destruct H as [H|H]; apply andb_true_iff in H; destruct H as [Ha Hb]; apply Nat.leb_le in Ha, Hb; lia.
Qed.
Definition no_name (r : chars) : Prop := match r with [] => True | c :: _ => name_char c = false end.
Lemma name_reads : forall v r, identifier v -> no_name r -> name_ (v ++ r) = Success v r.
Proof.
  intros v r (c & l & -> & Hc & Hl) Hr. unfold name_. cbn [app].
  rewrite (step _ _ _ _ _ c (l ++ r)).
  - rewrite (step _ _ _ _ _ l r); [reflexivity|]. apply star_chars; [exact Hl|exact Hr].
  - unfold char_if, pre. cbn [skip]. rewrite (letter_no_space c Hc), Hc. reflexivity.
Qed.
Lemma value_reads : forall d s r, real d s -> stops r -> value_ (s ++ r) = Success d r.
Proof.
  intros d s r H Hr. rewrite <- (real_reads d s r H Hr). unfold value_, double_, pre. rewrite skip_head; [reflexivity|]. apply (real_head d). exact H.
Qed.
Lemma value_blank : forall w s, blank w -> value_ (w ++ s) = value_ s.
Proof. intros w s H. unfold value_, double_, pre. rewrite (skip_blank w s H). reflexivity. Qed.
(** Separated values. *)
Inductive vals : chars -> list decimal -> Prop :=
| vals_one : forall d s, real d s -> vals s [d]
| vals_cons : forall d s sep t l, real d s -> sep = str ", " \/ sep = str " , " -> vals t l -> vals (s ++ sep ++ t) (d :: l).
Lemma vals_split : forall s l, vals s l -> exists d t items, s = t ++ concat (map fst items) /\ real d t /\ l = d :: map snd items /\
  Forall (fun x => exists sep u, fst x = sep ++ u /\ (sep = str ", " \/ sep = str " , ") /\ real (snd x) u) items.
Proof.
  intros s l H. induction H as [d s H|d s sep t l H Hs Hv (d' & t' & items & -> & Hd & -> & IH)].
  - exists d, s, []. split; [cbn; rewrite app_nil_r; reflexivity|]. split; [exact H|]. split; [reflexivity|constructor].
  - exists d, s, ((sep ++ t', d') :: items). split; [cbn [map concat fst]; rewrite <- app_assoc; reflexivity|].
    split; [exact H|]. split; [reflexivity|]. constructor; [|exact IH]. exists sep, t'. cbn. split; [reflexivity|]. split; assumption.
Qed.
Lemma values_reads : forall s l r, vals s l -> stops r -> word_ "," r = Fail -> values_ (s ++ r) = Success l r.
Proof.
  intros s l r H Hr Hf. apply vals_split in H. destruct H as (d & t & items & -> & Hd & -> & HI). rewrite <- app_assoc. unfold values_.
  assert (HI' : Forall (fun x => (forall r, stops r -> (read _ <- word_ ","; value_) (fst x ++ r) = Success (snd x) r) /\ fst x <> [] /\ forall r, stops (fst x ++ r)) items).
  { eapply Forall_impl; [|exact HI]. intros [z y] (sep & u & E & Hs & Hu). cbn [fst snd] in *. subst z. split; [|split].
    - intros q Hq. rewrite <- app_assoc. destruct Hs as [->| ->].
      + change (str ", " ++ u ++ q) with (","%char :: str " " ++ u ++ q). next. rewrite (value_blank (str " ")) by (apply white_blank; reflexivity). apply value_reads; assumption.
      + change (str " , " ++ u ++ q) with (" "%char :: ","%char :: str " " ++ u ++ q). next. rewrite (value_blank (str " ")) by (apply white_blank; reflexivity). apply value_reads; assumption.
    - destruct Hs as [->| ->]; discriminate.
    - intro q. destruct Hs as [->| ->]; split; [|split| |split]; try reflexivity; split; reflexivity. }
  rewrite (step _ _ _ _ _ d (concat (map fst items) ++ r)).
  - rewrite (step _ _ _ _ _ (map snd items) r); [reflexivity|].
    apply (star_reads _ _ stops); [exact HI'|exact Hr|]. unfold and_then. rewrite Hf. reflexivity.
  - apply value_reads; [exact Hd|]. destruct HI' as [|[z y] items' (_ & _ & K) _]; [exact Hr|]. cbn [map concat fst]. rewrite <- app_assoc. apply K.
Qed.

(** *** Statements *)
Definition stmt (t : chars) (st : statement) : Prop := (forall r, statement_ (t ++ r) = Success st r) /\ exists c t', t = c :: t' /\ letter c = true.
Lemma ident_head : forall v s, identifier v -> exists c t', v ++ s = c :: t' /\ letter c = true.
Proof. intros v s (c & l & -> & Hc & _). exists c, (l ++ s). split; [reflexivity|exact Hc]. Qed.
Lemma stmt_element : forall v k d s, identifier v -> real d s -> stmt (v ++ str "(" ++ show k ++ str ") = " ++ s ++ str ";") (SetElement v (N.of_nat k) d).
Proof.
  intros v k d s Hv Hs. split; [|apply ident_head; exact Hv]. intro r. rewrite <- !app_assoc. unfold statement_.
  erewrite step by (apply name_reads; [exact Hv|reflexivity]). apply alt_l. next.
  rewrite (step _ _ _ _ _ _ _ (index_reads k (str ") = " ++ s ++ str ";" ++ r) eq_refl)).
  rewrite alt_r by reflexivity. next. next. change (str " " ++ s ++ str ";" ++ r) with (str " " ++ s ++ str ";" ++ r).
  rewrite (step _ _ _ _ _ d (str ";" ++ r)).
  - next. reflexivity.
  - change (value_ (str " " ++ (s ++ str ";" ++ r)) = Success d (str ";" ++ r)). rewrite value_blank by (apply white_blank; reflexivity).
    apply value_reads; [exact Hs|]. split; [reflexivity|]. split; [split; reflexivity|reflexivity].
Qed.
Lemma stmt_row : forall v k s l e, identifier v -> vals s l -> e = str "];" \/ e = str " ];" -> stmt (v ++ str "(" ++ show k ++ str ",:) = [" ++ s ++ e) (SetRow v (N.of_nat k) l).
Proof.
  intros v k s l e Hv Hs He. split; [|apply ident_head; exact Hv]. intro r. rewrite <- !app_assoc. unfold statement_.
  erewrite step by (apply name_reads; [exact Hv|reflexivity]). apply alt_l. next.
  rewrite (step _ _ _ _ _ _ _ (index_reads k (str ",:) = [" ++ s ++ e ++ r) eq_refl)).
  apply alt_l. next. next. next. next. next.
  rewrite (step _ _ _ _ _ l (e ++ r)).
  - destruct He as [->| ->]; next; next; reflexivity.
  - apply values_reads; [exact Hs| |].
    + destruct He as [->| ->]; split; [|split| |split]; try reflexivity; split; reflexivity.
    + destruct He as [->| ->]; reflexivity.
Qed.
Lemma stmt_zeros : forall v n c, identifier v -> c = 1 \/ c = 2 -> stmt (v ++ str " = zeros(" ++ show n ++ str "," ++ show c ++ str ");") (Zeros v (N.of_nat n) (N.of_nat c)).
Proof.
  intros v n c Hv _. split; [|apply ident_head; exact Hv]. intro r. rewrite <- !app_assoc. unfold statement_.
  erewrite step by (apply name_reads; [exact Hv|reflexivity]). rewrite alt_r by reflexivity. next. apply alt_l. next.
  rewrite (step _ _ _ _ _ _ _ (index_reads n (str "," ++ show c ++ str ");" ++ r) eq_refl)). next.
  rewrite (step _ _ _ _ _ _ _ (index_reads c (str ");" ++ r) eq_refl)). next. next. reflexivity.
Qed.
Lemma stmt_empty : forall v, identifier v -> stmt (v ++ str " = [];") (Empty v).
Proof.
  intros v Hv. split; [|apply ident_head; exact Hv]. intro r. rewrite <- !app_assoc. unfold statement_.
  erewrite step by (apply name_reads; [exact Hv|reflexivity]). rewrite alt_r by reflexivity. next. rewrite alt_r by reflexivity. next. next. next. reflexivity.
Qed.

(** *** Bodies of functions *)
Inductive body : chars -> list statement -> Prop :=
| body_nil : forall w, blank w -> body w []
| body_cons : forall w t st s l, blank w -> stmt t st -> body s l -> body (w ++ t ++ s) (st :: l).
Lemma blank_app : forall a b, blank a -> blank b -> blank (a ++ b).
Proof. intros. apply Forall_app. split; assumption. Qed.
Lemma body_blank : forall w s l, blank w -> body s l -> body (w ++ s) l.
Proof.
  intros w s l Hw H. destruct H as [u Hu|u t st s l Hu Ht H].
  - constructor. apply blank_app; assumption.
  - rewrite app_assoc. constructor; [apply blank_app; assumption|exact Ht|exact H].
Qed.
Lemma body_app : forall s1 l1 s2 l2, body s1 l1 -> body s2 l2 -> body (s1 ++ s2) (l1 ++ l2).
Proof.
  intros s1 l1 s2 l2 H1 H2. induction H1 as [w Hw|w t st s l Hw Ht H IH].
  - apply body_blank; assumption.
  - rewrite <- !app_assoc. cbn [app]. constructor; assumption.
Qed.
Lemma body_line : forall t st w, stmt t st -> blank w -> body (t ++ w) [st].
Proof. intros t st w Ht Hw. apply (body_cons [] t st w []); [constructor|exact Ht|constructor; exact Hw]. Qed.
Lemma stmt_skip : forall w s, blank w -> statement_ (w ++ s) = statement_ s.
Proof.
  intros w s H. unfold statement_, name_, and_then at 1. unfold and_then at 1. unfold char_if at 1, pre. rewrite (skip_blank w s H). reflexivity.
Qed.
Lemma letter_not_empty : forall w, blank w -> statement_ w = Fail.
Proof. intros w H. unfold statement_, name_, and_then at 1. unfold and_then at 1. unfold char_if at 1, pre. rewrite (skip_all w H). reflexivity. Qed.
Lemma body_star : forall s l, body s l -> exists w, blank w /\ star statement_ s = Success l w.
Proof.
  assert (K : forall s l, body s l -> exists w, blank w /\ length l <= length s /\ forall n, length l < n -> star_ n statement_ s = Success l w).
  { intros s l H. induction H as [w Hw|w t st s l Hw [Ht (c & t' & -> & _)] H (w' & Hw' & Hl & IH)].
    - exists w. split; [exact Hw|]. split; [cbn; lia|]. intros [|n] Hn; [lia|]. cbn [star_]. rewrite (letter_not_empty w Hw). reflexivity.
    - exists w'. split; [exact Hw'|]. split; [rewrite !app_length; cbn [length]; lia|]. intros [|n] Hn; [lia|]. cbn [star_]. rewrite (stmt_skip w _ Hw), Ht.
      rewrite IH by (cbn [length] in Hn; lia). reflexivity. }
  intros s l H. destruct (K s l H) as (w & Hw & Hl & Hs). exists w. split; [exact Hw|]. unfold star. apply Hs. lia.
Qed.
Lemma letter_not_percent : forall c, letter c = true -> Ascii.eqb "%" c = false.
Proof. intros c H. destruct (Ascii.eqb_spec "%" c) as [<-|K]; [discriminate H|reflexivity]. Qed.
Lemma body_no_comment : forall s l, body s l -> comment_ s = Fail.
Proof.
  intros s l H. unfold comment_, and_then, word_, lit, pre. destruct H as [w Hw|w t st s l Hw [_ (c & t' & -> & Hc)] H].
  - rewrite (skip_all w Hw). reflexivity.
  - rewrite (skip_blank w _ Hw). cbn [app]. rewrite skip_head by (cbn; apply letter_no_space; exact Hc). cbn [str list_ascii_of_string prefix].
    rewrite (letter_not_percent c Hc). reflexivity.
Qed.
(** A comment line before the body. *)
Lemma comments : forall t s l, Forall (fun c => negb (Ascii.eqb c "010") = true) t -> body s l ->
  star comment_ (newline ++ str "%" ++ t ++ newline ++ s) = Success [tt] (newline ++ s).
Proof.
  intros t s l Ht Hs. unfold star. set (n := S (length (newline ++ str "%" ++ t ++ newline ++ s))).
  assert (Hn : 1 < n) by (unfold n; cbn; lia). clearbody n. destruct n as [|[|n]]; try lia. cbn [star_].
  assert (E : comment_ (newline ++ str "%" ++ t ++ newline ++ s) = Success tt (newline ++ s)).
  { unfold comment_. next. rewrite (step _ _ _ _ _ t (newline ++ s)); [reflexivity|]. apply star_chars; [exact Ht|reflexivity]. }
  rewrite E, (body_no_comment (newline ++ s) l); [reflexivity|]. apply body_blank; [apply white_blank; reflexivity|exact Hs].
Qed.
Lemma and_then_ok : forall A B (p : parser A) (q : A -> parser B) s b r, and_then p q s = Success b r -> exists a r1, p s = Success a r1 /\ q a r1 = Success b r.
Proof. intros A B p q s b r H. unfold and_then in H. destruct (p s) as [a r1| | |]; try discriminate H. exists a, r1. split; [reflexivity|exact H]. Qed.
Lemma run_body : forall rest f os o t s l e out,
  (forall r, (read _ <- word_ "function "; read _ <- word_ "["; read o <- name_; read os <- star (read _ <- word_ ","; name_); read _ <- word_ "]"; read _ <- word_ "="; ret (o :: os)) (rest ++ r) = Success (o :: os) (str " " ++ r)) ->
  identifier f -> Forall (fun c => negb (Ascii.eqb c "010") = true) t -> body s l ->
  execute_all (fun _ => None) l = Some e -> outputs_of e (o :: os) = Some out ->
  run (rest ++ f ++ str "()" ++ newline ++ str "%" ++ t ++ newline ++ s) = Some (f, out).
Proof.
  intros rest f os o t s l e out Hh Hf Ht Hs He Ho. destruct (body_star (newline ++ s) l) as (w & Hw & Eb).
  { apply body_blank; [apply white_blank; reflexivity|exact Hs]. }
  assert (E : function_ (rest ++ f ++ str "()" ++ newline ++ str "%" ++ t ++ newline ++ s) = Success (Function (o :: os) f l) w).
  { specialize (Hh (f ++ str "()" ++ newline ++ str "%" ++ t ++ newline ++ s)). set (X := f ++ str "()" ++ newline ++ str "%" ++ t ++ newline ++ s) in *.
    unfold function_.
    do 6 (apply and_then_ok in Hh; let a := fresh in let r := fresh in let E := fresh in destruct Hh as (a & r & E & Hh); rewrite (step _ _ _ _ _ a r E); clear E).
    unfold ret in Hh. injection Hh as -> -> ->.
    rewrite (step _ _ _ _ _ f (str "()" ++ newline ++ str "%" ++ t ++ newline ++ s)).
    - next. next. rewrite (step _ _ _ _ _ _ _ (comments t s l Ht Hs)). rewrite (step _ _ _ _ _ _ _ Eb). reflexivity.
    - unfold X. destruct Hf as (c & u & -> & Hc & Hu). pose proof (name_reads (c :: u) (str "()" ++ newline ++ str "%" ++ t ++ newline ++ s)) as N.
      rewrite <- N; [|exists c, u; repeat split; assumption|reflexivity].
      unfold name_, and_then at 1 2. unfold char_if at 1 3, pre. reflexivity. }
  unfold run. rewrite E, (skip_all w Hw), He, Ho. reflexivity.
Qed.
