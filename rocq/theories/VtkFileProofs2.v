(** Words and numbers are read back. *)
From Coq Require Import String Ascii List Arith NArith ZArith QArith Qabs Bool Lia.
Import ListNotations.
From Verif Require Import Base MshModel MshSpec MshProofs WriteModel WriteSpec WriteProofs VtkFileModel VtkFileSpec VtkFileProofs.
Local Open Scope list_scope.
Local Open Scope nat_scope.

Lemma then_some : forall A B (p : reader A) (q : A -> reader B) s a r, p s = Some (a, r) -> then_ p q s = q a r.
Proof. intros A B p q s a r H. unfold then_. rewrite H. reflexivity. Qed.
Lemma same_refl : forall a, same a a = true.
Proof. intro a. unfold same. destruct (list_eq_dec ascii_dec a a); congruence. Qed.
Lemma same_eq : forall a b, same a b = true -> a = b.
Proof. intros a b. unfold same. destruct (list_eq_dec ascii_dec a b); congruence. Qed.
Lemma until_space_reads : forall w r, Forall (fun c => is_space c = false) w -> okt r -> VtkFileSpec.until_space (w ++ r) = (w, r).
Proof.
  intros w r H Hr. induction H as [|c w Hc Hw IH]; cbn [app].
  - destruct r as [|c r]; [reflexivity|]. cbn [VtkFileSpec.until_space]. cbn in Hr. rewrite Hr. reflexivity.
  - cbn [VtkFileSpec.until_space]. rewrite Hc, IH. reflexivity.
Qed.
Lemma word_reads : forall p w r, blank p -> is_word w -> okt r -> VtkFileSpec.word (p ++ w ++ r) = Some (w, r).
Proof.
  intros p w r Hp [Hw1 Hw2] Hr. unfold VtkFileSpec.word. rewrite skip_blank by exact Hp. destruct w as [|c w]; [congruence|].
  rewrite skip_head by (inversion Hw2; assumption). rewrite (until_space_reads (c :: w) r Hw2 Hr). reflexivity.
Qed.
Definition wordb (w : chars) : bool := negb (match w with [] => true | _ => false end) && forallb (fun c => negb (is_space c)) w.
Lemma wordb_ok : forall w, wordb w = true -> is_word w.
Proof.
  intros w H. apply andb_true_iff in H. destruct H as [H1 H2]. split; [destruct w; [discriminate|discriminate]|].
  apply Forall_forall. intros c Hc. rewrite forallb_forall in H2. specialize (H2 c Hc). destruct (is_space c); [discriminate|reflexivity].
Qed.
Lemma keyword_reads : forall p t r, blank p -> wordb (str t) = true -> okt r -> keyword t (p ++ str t ++ r) = Some (tt, r).
Proof.
  intros p t r Hp Hw Hr. unfold keyword. erewrite then_some; [|apply word_reads; [exact Hp|apply wordb_ok, Hw|exact Hr]].
  unfold check. rewrite same_refl. reflexivity.
Qed.
Lemma digits_word : forall ds s, ds <> [] -> digits_of ds s -> is_word s.
Proof.
  intros ds s Hne [H ->]. split; [destruct ds; [congruence|discriminate]|].
  apply Forall_forall. intros c Hc. apply in_map_iff in Hc. destruct Hc as (d & <- & Hd). rewrite Forall_forall in H. apply digit_not_space, H, Hd.
Qed.
Lemma count_reads : forall p n r, blank p -> okt r -> count (p ++ show n ++ r) = Some (n, r).
Proof.
  intros p n r Hp Hr. destruct (show_N_digits (N.of_nat n)) as (ds & Hne & Hd & Hv). unfold count, show.
  erewrite then_some; [|apply word_reads; [exact Hp|exact (digits_word ds _ Hne Hd)|exact Hr]].
  pose proof (digits_read ds _ [] Hd I) as E. rewrite app_nil_r in E. rewrite E. destruct ds as [|d ds]; [congruence|].
  unfold give. rewrite number_value, Hv, Nat2N.id. reflexivity.
Qed.
(** Types. *)
Definition type_word (k : kind) : chars := skipn 1 (type_name k).
Lemma type_reads : forall p k r, blank p -> k <> Integer UChar -> okt r -> type (p ++ type_word k ++ r) = Some (k, r).
Proof.
  intros p k r Hp Hk Hr. unfold type. erewrite then_some; [|apply word_reads; [exact Hp| |exact Hr]].
  - destruct k as [[]|[]]; try congruence; reflexivity.
  - apply wordb_ok. destruct k as [[]|[]]; reflexivity.
Qed.

(** *** Integers *)
Lemma wrap_in : forall b i z, in_type b (Integer i) z -> wrap i z = z.
Proof.
  intros b i z H. unfold in_type in H. unfold wrap. destruct i; cbn [signed bits] in *; cbv zeta;
    [change (2 ^ (8 - 1))%Z with 128%Z in H; change (2 ^ 8)%Z with 256%Z; change (256 / 2)%Z with 128%Z
    |change (2 ^ 8)%Z with 256%Z in *
    |change (2 ^ (16 - 1))%Z with 32768%Z in H; change (2 ^ 16)%Z with 65536%Z; change (65536 / 2)%Z with 32768%Z
    |change (2 ^ 16)%Z with 65536%Z in *
    |change (2 ^ (32 - 1))%Z with 2147483648%Z in H; change (2 ^ 32)%Z with 4294967296%Z; change (4294967296 / 2)%Z with 2147483648%Z
    |change (2 ^ 32)%Z with 4294967296%Z in *
    |change (2 ^ (64 - 1))%Z with 9223372036854775808%Z in H; change (2 ^ 64)%Z with 18446744073709551616%Z; change (18446744073709551616 / 2)%Z with 9223372036854775808%Z
    |change (2 ^ 64)%Z with 18446744073709551616%Z in *]; rewrite Z.mod_small by lia; lia.
Qed.
Lemma wrap_mod : forall i z, wrap i (z mod 2 ^ bits i) = wrap i z.
Proof.
  intros i z. unfold wrap. cbv zeta. assert (0 < 2 ^ bits i)%Z by (destruct i; reflexivity). destruct (signed i); [|apply Z.mod_mod; lia].
  rewrite Zplus_mod_idemp_l. reflexivity.
Qed.
Lemma show_Z_word : forall z, is_word (show_Z z).
Proof.
  intro z. destruct (show_N_digits (Z.abs_N z)) as (ds & Hne & Hd & _). destruct (digits_word ds _ Hne Hd) as [W1 W2].
  unfold show_Z. destruct (z <? 0)%Z; [|split; assumption]. split; [discriminate|]. constructor; [reflexivity|exact W2].
Qed.
Lemma show_Z_item : forall i z, in_type ASCII (Integer i) z ->
  (let (g, r) := sign (show_Z z) in match digits r with (d :: ds, []) => give (Whole (wrap i (g * Z.of_N (number (d :: ds))))) | _ => fun _ : chars => None end) = give (Whole z).
Proof.
  intros i z H. unfold show_Z. destruct (show_N_digits (Z.abs_N z)) as (ds & Hne & Hd & Hv).
  assert (Hs : sign_of (if (z <? 0)%Z then (-1)%Z else 1%Z) (if (z <? 0)%Z then str "-" else [])) by (destruct (z <? 0)%Z; [right|left]; split; auto).
  assert (R : sign ((if (z <? 0)%Z then str "-" else []) ++ show_N (Z.abs_N z)) = (if (z <? 0)%Z then (-1)%Z else 1%Z, show_N (Z.abs_N z))).
  { apply (sign_read _ _ (show_N (Z.abs_N z)) Hs). destruct (digits_not_nil ds _ Hd Hne) as (d & s' & -> & K). split; now apply dchar_not. }
  rewrite R.
  pose proof (digits_read ds _ [] Hd I) as E. rewrite app_nil_r in E. rewrite E. destruct ds as [|d ds]; [congruence|]. rewrite number_value, Hv.
  replace ((if (z <? 0)%Z then -1 else 1) * Z.of_N (Z.abs_N z))%Z with z by (destruct (Z.ltb_spec z 0); lia). rewrite (wrap_in ASCII) by exact H. reflexivity.
Qed.
(** *** Numbers in text format *)
Lemma real_word : forall d s, MshSpec.real d s -> is_word s.
Proof.
  intros d s (g & ip & fp & s1 & s2 & s3 & s4 & k & -> & Hg & Hip & Hne & H3 & H4 & _).
  assert (D : forall ds t, digits_of ds t -> Forall (fun c => is_space c = false) t).
  { intros ds t [H ->]. apply Forall_forall. intros c Hc. apply in_map_iff in Hc. destruct Hc as (e & <- & He). rewrite Forall_forall in H. apply digit_not_space, H, He. }
  assert (G : forall h t, sign_of h t -> Forall (fun c => is_space c = false) t) by (intros h t [[-> [->| ->]]|[-> ->]]; repeat constructor).
  split.
  - intro E. apply app_eq_nil in E. destruct E as [_ E]. apply app_eq_nil in E. destruct E as [E2 E]. apply app_eq_nil in E. destruct E as [E3 _].
    destruct H3 as [[-> ->]|(t & -> & Ht)]; [|discriminate E3]. rewrite app_nil_r in Hne. destruct (digits_not_nil ip s2 Hip Hne) as (e & s' & -> & _). discriminate E2.
  - apply Forall_app. split; [exact (G _ _ Hg)|]. apply Forall_app. split; [exact (D _ _ Hip)|]. apply Forall_app. split.
    + destruct H3 as [[_ ->]|(t & -> & Ht)]; [constructor|]. constructor; [reflexivity|exact (D _ _ Ht)].
    + destruct H4 as [[_ ->]|(e & h & ep & t1 & t2 & He & -> & Hh & Hep & Hd & _)]; [constructor|].
      constructor; [destruct He as [->| ->]; reflexivity|]. apply Forall_app. split; [exact (G _ _ Hh)|exact (D _ _ Hd)].
Qed.
Lemma number_word : forall k z, in_type ASCII k z -> is_word (number_text k z).
Proof.
  intros [i|r] z H; cbn [number_text]; [apply show_Z_word|]. destruct H as [_ H]. destruct (H eq_refl) as [x Hx]. rewrite Hx.
  destruct (real_text_spec x) as (d & Hd & _). exact (real_word d _ Hd).
Qed.
Lemma text_item_reads : forall k z p r, in_type ASCII k z -> blank p -> okt r ->
  exists i, text_item k (p ++ number_text k z ++ r) = Some (i, r) /\ agrees ASCII k z i.
Proof.
  intros k z p r H Hp Hr. unfold text_item. erewrite then_some; [|apply word_reads; [exact Hp|apply number_word, H|exact Hr]].
  destruct k as [i|q]; cbn [number_text agrees].
  - rewrite show_Z_item by exact H. exists (Whole z). split; reflexivity.
  - destruct H as [_ H]. destruct (H eq_refl) as [x Hx]. rewrite Hx. destruct (real_text_spec x) as (d & Hd & Ht).
    pose proof (real_reads d _ [] Hd) as E. rewrite app_nil_r in E. rewrite E by (split; [exact I|split; exact I]).
    exists (Decimal d). split; [reflexivity|]. exists d, x. split; [reflexivity|]. split; [reflexivity|exact Ht].
Qed.
(** *** Numbers in binary format *)
Lemma big_endian_length : forall n z, length (big_endian n z) = n.
Proof. induction n as [|n IH]; intro z; cbn [big_endian]; [reflexivity|]. rewrite app_length, IH. cbn [length]. lia. Qed.
Lemma big_endian_unsigned : forall n z, unsigned (big_endian n z) = (z mod 2 ^ (8 * Z.of_nat n))%Z.
Proof.
  induction n as [|n IH]; intro z; cbn [big_endian].
  - change (8 * Z.of_nat 0)%Z with 0%Z. rewrite Z.pow_0_r, Z.mod_1_r. reflexivity.
  - unfold unsigned. rewrite fold_left_app. cbn [fold_left]. fold (unsigned (big_endian n (z / 256))). rewrite IH.
    assert (B : (0 <= z mod 256 < 256)%Z) by (apply Z.mod_pos_bound; lia). rewrite N_ascii_embedding by lia. rewrite Z2N.id by lia.
    replace (8 * Z.of_nat (S n))%Z with (8 + 8 * Z.of_nat n)%Z by lia. rewrite Z.pow_add_r by lia. change (2 ^ 8)%Z with 256%Z.
    rewrite (Z.rem_mul_r z 256 (2 ^ (8 * Z.of_nat n))); [lia|lia|]. apply Z.pow_pos_nonneg; lia.
Qed.
Lemma binary_item_reads : forall k z r, in_type BINARY k z ->
  exists i, binary_item k (number_bytes k z ++ r) = Some (i, r) /\ agrees BINARY k z i.
Proof.
  intros k z r H. unfold binary_item, number_bytes.
  assert (E : bytes (bytes_of k) (big_endian (bytes_of k) z ++ r) = Some (big_endian (bytes_of k) z, r)).
  { unfold bytes. rewrite app_length, big_endian_length. destruct (Nat.ltb_spec (bytes_of k + length r) (bytes_of k)); [lia|].
    rewrite firstn_app, skipn_app, big_endian_length, Nat.sub_diag. cbn [firstn skipn]. rewrite app_nil_r.
    rewrite firstn_all2, skipn_all2 by (rewrite big_endian_length; lia). reflexivity. }
  rewrite (then_some _ _ _ _ _ _ _ E). unfold give. rewrite big_endian_unsigned. eexists. split; [reflexivity|].
  destruct k as [i|q]; cbn [agrees].
  - replace (8 * Z.of_nat (bytes_of (Integer i)))%Z with (bits i) by (destruct i; reflexivity). rewrite wrap_mod, (wrap_in BINARY) by exact H. reflexivity.
  - destruct H as [H _]. rewrite Z.mod_small by exact H. reflexivity.
Qed.

(** *** Arrays *)
(** Words, each of them with white space behind it. *)
Inductive spaced : list chars -> chars -> Prop :=
| spaced_nil : spaced [] []
| spaced_cons : forall w p ws s, is_word w -> p <> [] -> blank p -> spaced ws s -> spaced (w :: ws) (w ++ p ++ s).
Lemma spaced_app : forall a s, spaced a s -> forall b t, spaced b t -> spaced (a ++ b) (s ++ t).
Proof.
  intros a s H b t Hb. induction H as [|w p ws s Hw Hp1 Hp2 Hs IH]; cbn [app]; [exact Hb|]. rewrite <- !app_assoc. constructor; assumption.
Qed.
Lemma spaced_one : forall w p, is_word w -> p <> [] -> blank p -> spaced [w] (w ++ p).
Proof. intros w p Hw H1 H2. rewrite <- (app_nil_r p). constructor; [assumption|assumption|assumption|constructor]. Qed.
Lemma spaced_flat : forall A (f : A -> list chars) (g : A -> chars) l, (forall a, In a l -> spaced (f a) (g a)) -> spaced (flat_map f l) (flat_map g l).
Proof.
  intros A f g l H. induction l as [|a l IH]; cbn [flat_map]; [constructor|]. apply spaced_app; [apply H; left; reflexivity|apply IH; intros b Hb; apply H; right; exact Hb].
Qed.
Lemma blank_okt : forall p r, blank p -> p <> [] -> okt (p ++ r).
Proof. intros [|c p] r H K; [congruence|]. inversion H; subst. cbn. apply is_space_white. assumption. Qed.
Lemma spaced_separated : forall sep e l t, sep <> [] -> blank sep -> e <> [] -> blank e -> Forall is_word l -> separated sep l = Some t -> spaced l (t ++ e).
Proof.
  intros sep e l t S1 S2 E1 E2 H. revert t. induction H as [|w l Hw Hl IH]; intros t E; cbn [separated] in E; [discriminate|].
  destruct l as [|w' l]; [injection E as <-; apply spaced_one; assumption|].
  destruct (separated sep (w' :: l)) as [t'|]; [|discriminate]. cbn [option_map] in E. injection E as <-. rewrite <- !app_assoc. constructor; try assumption. apply IH. reflexivity.
Qed.
Lemma text_items_read : forall k zs, Forall (in_type ASCII k) zs -> forall p s r, spaced (map (number_text k) zs) s -> blank p ->
  exists is p', times (length zs) (text_item k) (p ++ s ++ r) = Some (is, p' ++ r) /\ blank p' /\ Forall2 (agrees ASCII k) zs is.
Proof.
  intros k zs H. induction H as [|z zs Hz Hzs IH]; intros p s r Hs Hp; cbn [map] in Hs; inversion Hs as [|w' p0 ws s0 Hw0 Hp0 Hb0 Hs0]; subst; cbn [length times].
  - exists [], p. split; [reflexivity|]. split; [exact Hp|constructor].
  - destruct (text_item_reads k z p (p0 ++ s0 ++ r) Hz Hp) as (i & Ei & Ai); [apply blank_okt; assumption|].
    destruct (IH p0 s0 r Hs0 Hb0) as (is & p' & E & Hp' & A). rewrite <- !app_assoc.
    rewrite (then_some _ _ _ _ _ _ _ Ei), (then_some _ _ _ _ _ _ _ E). exists (i :: is), p'. split; [reflexivity|]. split; [exact Hp'|]. constructor; assumption.
Qed.
Lemma binary_items_read : forall k zs, Forall (in_type BINARY k) zs -> forall r,
  exists is, times (length zs) (binary_item k) (flat_map (number_bytes k) zs ++ r) = Some (is, r) /\ Forall2 (agrees BINARY k) zs is.
Proof.
  intros k zs H. induction H as [|z zs Hz Hzs IH]; intro r; cbn [length times flat_map].
  - exists []. split; [reflexivity|constructor].
  - rewrite <- app_assoc. destruct (binary_item_reads k z (flat_map (number_bytes k) zs ++ r) Hz) as (i & Ei & Ai). destruct (IH r) as (is & E & A).
    rewrite (then_some _ _ _ _ _ _ _ Ei), (then_some _ _ _ _ _ _ _ E). exists (i :: is). split; [reflexivity|]. constructor; assumption.
Qed.
(** The numbers zs of type k as characters behind the end of a line. *)
Definition layout (b : format) (k : kind) (zs : list Z) (s : chars) : Prop :=
  match b with
  | ASCII => exists t e, s = t ++ e /\ spaced (map (number_text k) zs) t /\ blank e
  | BINARY => exists e, s = flat_map (number_bytes k) zs ++ e /\ blank e
  end.
Lemma blank_nl : blank nl.
Proof. constructor; [apply is_space_white; reflexivity|constructor]. Qed.
Lemma blank_sp : blank sp.
Proof. constructor; [apply is_space_white; reflexivity|constructor]. Qed.
Lemma blank_app : forall a b, blank a -> blank b -> blank (a ++ b).
Proof. intros a b Ha Hb. apply Forall_app. split; assumption. Qed.
Lemma array_reads : forall b k zs s r, Forall (in_type b k) zs -> layout b k zs s ->
  exists is p, array b k (length zs) (nl ++ s ++ r) = Some (is, p ++ r) /\ blank p /\ Forall2 (agrees b k) zs is.
Proof.
  intros [|] k zs s r H L; cbn [layout] in L; unfold array.
  - destruct L as (t & e & -> & Hs & He). rewrite <- app_assoc. destruct (text_items_read k zs H nl t (e ++ r) Hs blank_nl) as (is & p & E & Hp & A).
    exists is, (p ++ e). rewrite E, <- app_assoc. split; [reflexivity|]. split; [apply blank_app; assumption|exact A].
  - destruct L as (e & -> & He). rewrite <- app_assoc. destruct (binary_items_read k zs H (e ++ r)) as (is & E & A).
    exists is, e. split; [|split; assumption].
    change (nl ++ flat_map (number_bytes k) zs ++ e ++ r) with ("010"%char :: flat_map (number_bytes k) zs ++ e ++ r).
    erewrite then_some; [|cbn [line]; rewrite Ascii.eqb_refl; reflexivity]. erewrite then_some; [|reflexivity]. exact E.
Qed.
