(** Proofs for C104: reading pictures. *)
From Coq Require Import String Ascii List Arith NArith ZArith QArith Qabs Bool Lia.
Import ListNotations.
From Verif Require Import Base MeshModel MeshView DofModel AssembleModel.
From Verif Require Import MshModel MshSpec MshProofs WriteModel WriteSpec WriteProofs WriteProofs2 WriteProofs3 TikzModel TikzSpec.
Local Open Scope list_scope.
Local Open Scope nat_scope.

Lemma until_reads : forall c l r, Forall (fun d => negb (Ascii.eqb d c) = true) l -> until_ c (l ++ c :: r) = Success l r.
Proof.
  intros c l r H. unfold until_. rewrite (step _ _ _ _ _ l (c :: r)).
  - unfold and_then, lit, pre. cbn [prefix]. rewrite Ascii.eqb_refl. reflexivity.
  - apply star_chars; [exact H|]. rewrite Ascii.eqb_refl. reflexivity.
Qed.
(** *** Elements of paths *)
Definition el (t : chars) (e : element) : Prop := (forall r, element_ (t ++ r) = Success e r) /\ t <> [].
Lemma stop_comma : forall r, stops (str "," ++ r).
Proof. intro r. split; [reflexivity|]. split; [split; reflexivity|reflexivity]. Qed.
Lemma stop_paren : forall r, stops (str ")" ++ r).
Proof. intro r. split; [reflexivity|]. split; [split; reflexivity|reflexivity]. Qed.
Lemma el_at : forall x y sx sy, real x sx -> real y sy -> el (str " (" ++ sx ++ str "," ++ sy ++ str ")") (At x y).
Proof.
  intros x y sx sy Hx Hy. split; [|discriminate]. intro r. rewrite <- !app_assoc. unfold element_. apply alt_l. next.
  change (list_ascii_of_string "") with (@nil ascii). cbn [app].
  erewrite step by (apply value_reads; [exact Hx|apply stop_comma]). next.
  erewrite step by (apply value_reads; [exact Hy|apply stop_paren]). next. reflexivity.
Qed.
Lemma el_line : el (str " --") Line.
Proof. split; [|discriminate]. intro r. unfold element_. rewrite alt_r by reflexivity. apply alt_l. next. reflexivity. Qed.
Lemma el_label : forall o t, Forall (fun d => negb (Ascii.eqb d "]") = true) o -> Forall (fun d => negb (Ascii.eqb d "}") = true) t ->
  el (str " node[" ++ o ++ str "] {" ++ t ++ str "}") (Label o t).
Proof.
  intros o t Ho Ht. split; [|discriminate]. intro r. rewrite <- !app_assoc. unfold element_. rewrite alt_r by reflexivity. rewrite alt_r by reflexivity. apply alt_l. next. next.
  erewrite step by (apply until_reads; exact Ho). next. erewrite step by (apply until_reads; exact Ht). reflexivity.
Qed.
Lemma el_cycle : el (str " cycle") Cycle.
Proof. split; [|discriminate]. intro r. unfold element_. rewrite alt_r by reflexivity. rewrite alt_r by reflexivity. rewrite alt_r by reflexivity. next. reflexivity. Qed.

(** *** Commands *)
Definition cmd (t : chars) (c : command) : Prop := forall r, command_ (newline ++ t ++ r) = Success c r.
Lemma cmd_draw : forall o items, Forall (fun d => negb (Ascii.eqb d "]") = true) o -> Forall (fun x => el (fst x) (snd x)) items ->
  cmd (str "\draw[" ++ o ++ str "]" ++ concat (map fst items) ++ str ";") (Draw o (map snd items)).
Proof.
  intros o items Ho Hi r. rewrite <- !app_assoc. unfold command_. next. next. erewrite step by (apply until_reads; exact Ho).
  change ((list_ascii_of_string "") ++ concat (map fst items) ++ str ";" ++ r) with (concat (map fst items) ++ str ";" ++ r).
  erewrite step.
  2: { apply (star_reads _ _ (fun _ => True)); [|exact I|reflexivity]. eapply Forall_impl; [|exact Hi]. intros x [Hx Hn]. split; [intros q _; apply Hx|]. split; [exact Hn|trivial]. }
  next. reflexivity.
Qed.
(** A text that shows a drawing. *)
Definition shown (t : chars) (d : list (figure point label)) : Prop :=
  exists items fs, t = concat (map (fun x => fst x ++ newline) items) /\ Forall (fun x => cmd (fst x) (snd x)) items /\
    all_some (map figure_of (map snd items)) = Some fs /\ Forall2 same_figure fs d.
Lemma shown_nil : shown [] [].
Proof. exists [], []. split; [reflexivity|]. split; [constructor|]. split; [reflexivity|constructor]. Qed.
Lemma all_some_app : forall A (a b : list (option A)) x y, all_some a = Some x -> all_some b = Some y -> all_some (a ++ b) = Some (x ++ y).
Proof.
  intros A a. induction a as [|[u|] a IH]; intros b x y Ha Hb; cbn in *; [injection Ha as <-; exact Hb| |discriminate].
  destruct (all_some a) as [l|] eqn:E; [|discriminate]. injection Ha as <-. rewrite (IH b l y eq_refl Hb). reflexivity.
Qed.
Lemma shown_app : forall t u d e, shown t d -> shown u e -> shown (t ++ u) (d ++ e).
Proof.
  intros t u d e (i & f & -> & Hi & Ef & Ff) (j & g & -> & Hj & Eg & Fg). exists (i ++ j), (f ++ g).
  split; [rewrite map_app, concat_app; reflexivity|]. split; [apply Forall_app; split; assumption|]. split; [rewrite !map_app; apply all_some_app; assumption|apply Forall2_app; assumption].
Qed.
Lemma shown_one : forall t c f g, cmd t c -> figure_of c = Some f -> same_figure f g -> shown (t ++ newline) [g].
Proof.
  intros t c f g Hc Hf Hs. exists [(t, c)], [f]. split; [cbn; rewrite app_nil_r; reflexivity|]. split; [repeat constructor; exact Hc|]. split; [cbn; rewrite Hf; reflexivity|repeat constructor; exact Hs].
Qed.
Lemma shown_concat : forall A (f : A -> chars) (g : A -> list (figure point label)) l, (forall x, In x l -> shown (f x) (g x)) -> shown (concat (map f l)) (flat_map g l).
Proof.
  intros A f g l. induction l as [|x l IH]; intros H; [apply shown_nil|]. cbn [map concat flat_map]. apply shown_app; [apply H; left; reflexivity|apply IH; intros; apply H; right; assumption].
Qed.

(** *** Files *)
Lemma shift_newlines : forall (l : list chars), newline ++ concat (map (fun t => t ++ newline) l) = concat (map (fun t => newline ++ t) l) ++ newline.
Proof.
  induction l as [|t l IH]; [reflexivity|]. cbn [map concat]. rewrite <- !app_assoc. rewrite <- IH. reflexivity.
Qed.
Lemma star_commands : forall items r, Forall (fun x => cmd (fst x) (snd x)) items -> command_ (newline ++ r) = Fail ->
  star command_ (newline ++ concat (map (fun x => fst x ++ newline) items) ++ r) = Success (map snd items) (newline ++ r).
Proof.
  intros items r H Hf. rewrite app_assoc.
  rewrite <- (map_map fst (fun t => t ++ newline)), shift_newlines, map_map, <- app_assoc.
  rewrite <- (map_map (fun x : chars * command => (newline ++ fst x, snd x)) fst).
  replace (map snd items) with (map snd (map (fun x : chars * command => (newline ++ fst x, snd x)) items)) by (rewrite map_map; reflexivity).
  apply (star_reads _ _ (fun _ => True)); [|exact I|exact Hf]. apply Forall_map. eapply Forall_impl; [|exact H]. intros [t c] Hc. cbn [fst snd] in *.
  split; [intros q _; rewrite <- app_assoc; apply Hc|]. split; [discriminate|trivial].
Qed.
Definition picture_head (n : nat) : chars :=
  str "% TikZ document graphics " ++ newline ++
  (if 50 <? n then str "\begin{tikzpicture}[scale=6, >= stealth, inner sep=0pt, minimum size=0.2cm]" ++ newline ++ str "\tikzstyle{every node}=[font=\tiny]" ++ newline
   else str "\begin{tikzpicture}[scale=4, >= stealth, inner sep=0pt, minimum size=0.35cm]" ++ newline).
Lemma no_style : forall items r, Forall (fun x => cmd (fst x) (snd x)) items -> style_ (newline ++ r) = Fail ->
  style_ (newline ++ concat (map (fun x => fst x ++ newline) items) ++ r) = Fail.
Proof.
  intros items r H Hr. destruct H as [|[t c] items Hc H]; [exact Hr|]. cbn [map concat fst]. rewrite <- !app_assoc.
  specialize (Hc (newline ++ concat (map (fun x => fst x ++ newline) items) ++ r)). cbn [fst snd] in Hc. set (z := newline ++ t ++ _) in *. clearbody z.
  unfold command_, and_then at 1, word_, lit in Hc. unfold style_, and_then at 1, word_, lit. destruct (pre true z) as [|a [|b z']]; [reflexivity|..].
  - cbn [str list_ascii_of_string prefix] in *. destruct (Ascii.eqb "\" a); reflexivity.
  - cbn [str list_ascii_of_string prefix] in *. destruct (Ascii.eqb "\" a); [|reflexivity]. destruct (Ascii.eqb_spec "d" b) as [<-|N]; [reflexivity|discriminate Hc].
Qed.
Lemma one_comment : forall w t r, blank w -> Forall (fun c => negb (Ascii.eqb c "010") = true) t -> comment_ (newline ++ r) = Fail ->
  star comment_ (w ++ str "%" ++ t ++ newline ++ r) = Success [tt] (newline ++ r).
Proof.
  intros w t r Hw Ht Hr. unfold star. set (n := S (length _)). assert (Hn : 1 < n) by (unfold n; rewrite app_length; cbn [app str list_ascii_of_string length]; lia). clearbody n. destruct n as [|[|n]]; try lia. cbn [star_].
  assert (E : comment_ (w ++ str "%" ++ t ++ newline ++ r) = Success tt (newline ++ r)).
  { unfold comment_, and_then at 1, word_, lit, pre. rewrite (skip_blank w _ Hw). change (and_then (star (char_if false (fun c => negb (Ascii.eqb c "010")))) (fun _ => ret tt) (t ++ newline ++ r) = Success tt (newline ++ r)). erewrite step by (apply star_chars; [exact Ht|reflexivity]). reflexivity. }
  rewrite E, Hr. reflexivity.
Qed.
Lemma begin_picture : forall A (k : parser A) w o r, blank w -> Forall (fun d => negb (Ascii.eqb d "]") = true) o ->
  (read _ <- star comment_; read _ <- word_ "\begin{tikzpicture}"; read _ <- word_ "["; read _ <- until_ "]"; k)
    (w ++ str "%" ++ str " TikZ document graphics " ++ newline ++ str "\begin{tikzpicture}[" ++ o ++ str "]" ++ r) = k r.
Proof.
  intros A k w o r Hw Ho. erewrite step by (apply one_comment; [exact Hw|repeat constructor|reflexivity]). next. next.
  erewrite step by (apply until_reads; exact Ho). reflexivity.
Qed.
Lemma picture_reads : forall w n items r, blank w -> Forall (fun x => cmd (fst x) (snd x)) items ->
  picture_ (w ++ picture_head n ++ concat (map (fun x => fst x ++ newline) items) ++ str "\end{tikzpicture}" ++ newline ++ r) = Success (map snd items) (newline ++ r).
Proof.
  intros w n items r Hw H. unfold picture_, picture_head.
  set (rest := concat (map (fun x => fst x ++ newline) items) ++ str "\end{tikzpicture}" ++ newline ++ r).
  assert (Ns : style_ (newline ++ rest) = Fail) by (apply no_style; [exact H|reflexivity]).
  assert (Sc : star command_ (newline ++ rest) = Success (map snd items) (newline ++ str "\end{tikzpicture}" ++ newline ++ r)) by (apply star_commands; [exact H|reflexivity]).
  clearbody rest. destruct (50 <? n).
  - transitivity ((read _ <- star style_; read l <- star command_; read _ <- word_ "\end{tikzpicture}"; ret l) (newline ++ str "\tikzstyle{every node}=[font=\tiny]" ++ newline ++ rest)).
    { apply (begin_picture _ _ w (str "scale=6, >= stealth, inner sep=0pt, minimum size=0.2cm") (newline ++ str "\tikzstyle{every node}=[font=\tiny]" ++ newline ++ rest)); [exact Hw|repeat constructor]. }
    rewrite (step _ _ _ _ _ [tt] (newline ++ rest)).
    2: { apply (star_reads _ _ (fun _ => True) [(newline ++ str "\tikzstyle{every node}=[font=\tiny]", tt)] (newline ++ rest)); [|exact I|exact Ns].
         constructor; [|constructor]. cbn [fst snd]. split; [|split; [discriminate|trivial]]. intros q _. unfold style_. next. next.
         rewrite (step _ _ _ _ _ (str "every node") (str "=[font=\tiny]" ++ q)) by (apply (until_reads "}" (str "every node")); repeat constructor). next. next.
         rewrite (step _ _ _ _ _ (str "font=\tiny") q) by (apply (until_reads "]" (str "font=\tiny")); repeat constructor). reflexivity. }
    rewrite (step _ _ _ _ _ _ _ Sc). next. reflexivity.
  - transitivity ((read _ <- star style_; read l <- star command_; read _ <- word_ "\end{tikzpicture}"; ret l) (newline ++ rest)).
    { apply (begin_picture _ _ w (str "scale=4, >= stealth, inner sep=0pt, minimum size=0.35cm") (newline ++ rest)); [exact Hw|repeat constructor]. }
    rewrite (step _ _ _ _ _ [] (newline ++ rest)). 2: { apply (star_reads _ _ (fun _ => True) [] (newline ++ rest)); [constructor|exact I|exact Ns]. }
    rewrite (step _ _ _ _ _ _ _ Sc). next. reflexivity.
Qed.
Lemma tail_skips : forall s : chars, skip (newline ++ newline ++ s) = skip s.
Proof. reflexivity. Qed.
(** The file, given the commands in it. *)
Lemma file_shows : forall ctrl n t d, shown t d ->
  shows (flag_on ctrl WithPreamble) (tikz_head ctrl n ++ t ++ str "\end{tikzpicture}" ++ newline ++ (if flag_on ctrl WithPreamble then newline ++ str "\end{document}" ++ newline else [])) d.
Proof.
  intros ctrl n t d (items & fs & -> & Hi & Ef & Ff). exists fs. split; [|exact Ff]. unfold figures, whole.
  unfold tikz_head. fold (picture_head n). destruct (flag_on ctrl WithPreamble).
  - unfold document_. rewrite <- !app_assoc. set (pic := picture_head n ++ _). assert (E : preamble_ (str "\documentclass[12pt,a4paper]{article}" ++ newline ++ str "\usepackage{tikz}" ++ newline ++ str "\begin{document}" ++ newline ++ newline ++ pic) = Success tt (newline ++ newline ++ pic)).
    { clearbody pic. unfold preamble_. next. next.
      rewrite (step _ _ _ _ _ (str "12pt,a4paper") (str "{article}" ++ newline ++ str "\usepackage{tikz}" ++ newline ++ str "\begin{document}" ++ newline ++ newline ++ pic)) by (apply (until_reads "]" (str "12pt,a4paper")); repeat constructor).
      next. next. reflexivity. }
    rewrite (step _ _ _ _ _ _ _ E).
    erewrite step by (apply (picture_reads (newline ++ newline)); [repeat constructor; apply is_space_white; reflexivity|exact Hi]). next. cbn [skip ret]. exact Ef.
  - pose proof (picture_reads [] n items [] (Forall_nil _) Hi) as E. cbn [app] in E. cbn [app]. rewrite E. exact Ef.
Qed.
