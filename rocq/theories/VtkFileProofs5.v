(** Examples of files, and of files that are not read back. *)
From Coq Require Import String Ascii List Arith NArith ZArith QArith Qabs Bool Lia.
Import ListNotations.
From Verif Require Import Base MshModel MshSpec MshProofs WriteModel WriteSpec WriteProofs VtkFileModel VtkFileSpec VtkFileProofs4.
Local Open Scope list_scope.
Local Open Scope nat_scope.

(** The bit patterns of the floats 0, 1 and 1/8, and of the double 1. *)
Definition f0 : Z := 0%Z.
Definition f1 : Z := 1065353216%Z.
Definition f8 : Z := 1040187392%Z.
Definition d1 : Z := 4607182418800017408%Z.
Definition triangle : grid := mkGrid [(f0, f0, f0); (f1, f0, f0); (f8, f1, f0)] [[0; 1; 2]%Z] [5%Z].
(** A triangle with all kinds of data. *)
Definition sample (b : format) : vtk_file :=
  mkFile (str "a triangle") b triangle
    [IntArray (str "step") [-3; 7]%Z; RealArray Double (str "time") [d1]]
    [ScalarData (Integer Short) (str "flags") (str "default") [1; -2; 3]%Z; VectorData Float (str "velocity") [(f0, f1, f8); (f1, f1, f0); (f8, f0, f0)]]
    [ScalarData (Real Double) (str "density") (str "default") [d1]].
Lemma sample_valid : forall b, valid (sample b).
Proof. intro b. apply (proj1 (valid_iff (sample b))). destruct b; vm_compute; reflexivity. Qed.
Ltac typed := first [split; [split; [vm_compute; discriminate|reflexivity]|intros _; eexists; vm_compute; reflexivity]
                    | split; [vm_compute; discriminate|reflexivity] ].
Ltac each t := repeat (apply Forall_cons; [t|]); apply Forall_nil.
Ltac typed3 := split; [typed|split; typed].
Lemma words : forall w, VtkFileProofs2.wordb w = true -> is_word w.
Proof. exact VtkFileProofs2.wordb_ok. Qed.
Lemma sample_good : forall b, good (sample b).
Proof.
  intro b. unfold good. cbn [sample format_ grid_ triangle points cells cell_types field_data point_data cell_data].
  split; [each typed3|]. split.
  - constructor; [|constructor]. split; [reflexivity|]. split; [each ltac:(split; [vm_compute; discriminate|reflexivity])|discriminate].
  - split; [each typed|]. split; [|split].
    + constructor; [|constructor; [|constructor]]; (split; [apply words; reflexivity|]); (split; [each typed|discriminate]).
    + constructor; [|constructor; [|constructor]].
      * split; [discriminate|]. split; [apply words; reflexivity|]. split; [apply words; reflexivity|]. each typed.
      * split; [apply words; reflexivity|]. each typed3.
    + constructor; [|constructor]. split; [discriminate|]. split; [apply words; reflexivity|]. split; [apply words; reflexivity|]. each typed.
Qed.
Lemma sample_both : forall b, valid (sample b) /\ good (sample b).
Proof. intro b. split; [apply sample_valid|apply sample_good]. Qed.

(** A triangle with one array at its points. *)
Definition with_points (b : format) (a : list attribute) : vtk_file := mkFile (str "t") b triangle [] a [].
Lemma unsigned_char : forall b, exists f s c, format_ f = b /\ valid f /\
  point_data f = [ScalarData (Integer UChar) (str "u") (str "default") [200; 1; 2]%Z] /\
  WriteToFile f [] = (Ok tt, s) /\ read_file s = Some c /\
  c_point_data c = [Scalars (str "u") (Integer Char) (str "default") [Whole (-56); Whole 1; Whole 2]%Z].
Proof.
  intro b. exists (with_points b [ScalarData (Integer UChar) (str "u") (str "default") [200; 1; 2]%Z]).
  assert (E : exists s c, WriteToFile (with_points b [ScalarData (Integer UChar) (str "u") (str "default") [200; 1; 2]%Z]) [] = (Ok tt, s) /\ read_file s = Some c /\
    c_point_data c = [Scalars (str "u") (Integer Char) (str "default") [Whole (-56); Whole 1; Whole 2]%Z]).
  { destruct b; (eexists _, _; split; [vm_compute; reflexivity|]); (split; [vm_compute; reflexivity|reflexivity]). }
  destruct E as (s & c & E1 & E2 & E3). exists s, c. split; [reflexivity|]. split; [apply (proj1 (valid_iff _)); destruct b; vm_compute; reflexivity|].
  split; [reflexivity|]. split; [exact E1|]. split; [exact E2|exact E3].
Qed.
Definition with_corner (x : Z) : vtk_file := mkFile (str "t") ASCII (mkGrid [(f0, f0, f0); (f1, f0, f0); (x, f1, f0)] [[0; 1; 2]%Z] [5%Z]) [] [] [].
Lemma precision : exists f g, valid f /\ good f /\ valid g /\ good g /\ points (grid_ f) <> points (grid_ g) /\
  (exists x y, nth_error (points (grid_ f)) 2 = Some (x, f1, f0) /\ nth_error (points (grid_ g)) 2 = Some (y, f1, f0) /\
    exists p q, value_of Float x = Finite p /\ value_of Float y = Finite q /\ ~ (p == q)%Q) /\
  WriteToFile f [] = WriteToFile g [].
Proof.
  exists (with_corner f8), (with_corner (f8 + 1)).
  assert (V : forall x, valid (with_corner x)) by (intro x; apply (proj1 (valid_iff _)); reflexivity).
  assert (G : forall x, In x [f8; f8 + 1]%Z -> good (with_corner x)).
  { intros x Hx. unfold good. cbn [with_corner format_ grid_ points cells cell_types field_data point_data cell_data].
    split; [|split; [|split; [each typed|split; [constructor|split; constructor]]]].
    - destruct Hx as [<-|[<-|[]]]; each typed3.
    - constructor; [|constructor]. split; [reflexivity|]. split; [each ltac:(split; [vm_compute; discriminate|reflexivity])|discriminate]. }
  split; [apply V|]. split; [apply G; left; reflexivity|]. split; [apply V|]. split; [apply G; right; left; reflexivity|]. split; [discriminate|]. split.
  - exists f8, (f8 + 1)%Z. split; [reflexivity|]. split; [reflexivity|]. eexists _, _. split; [vm_compute; reflexivity|]. split; [vm_compute; reflexivity|]. vm_compute. discriminate.
  - vm_compute. reflexivity.
Qed.
Lemma empty_field : exists f s, format_ f = ASCII /\ valid f /\ field_data f = [RealArray Double (str "time") []] /\ WriteToFile f [] = (Ok tt, s) /\ read_file s = None.
Proof.
  exists (mkFile (str "t") ASCII triangle [RealArray Double (str "time") []] [] []). eexists. split; [reflexivity|].
  split; [apply (proj1 (valid_iff _)); reflexivity|]. split; [reflexivity|]. split; [vm_compute; reflexivity|vm_compute; reflexivity].
Qed.
Lemma blank_name : forall b, exists f s, format_ f = b /\ valid f /\ point_data f = [ScalarData (Integer Int) (str "my data") (str "default") [1; 2; 3]%Z] /\ WriteToFile f [] = (Ok tt, s) /\ read_file s = None.
Proof.
  intro b. exists (with_points b [ScalarData (Integer Int) (str "my data") (str "default") [1; 2; 3]%Z]).
  assert (E : exists s, WriteToFile (with_points b [ScalarData (Integer Int) (str "my data") (str "default") [1; 2; 3]%Z]) [] = (Ok tt, s) /\ read_file s = None).
  { destruct b; (eexists; split; [vm_compute; reflexivity|vm_compute; reflexivity]). }
  destruct E as (s & E1 & E2). exists s. split; [reflexivity|]. split; [apply (proj1 (valid_iff _)); destruct b; vm_compute; reflexivity|].
  split; [reflexivity|]. split; [exact E1|exact E2].
Qed.
Lemma previous_lost : exists f old, WriteToFile f old = (Throw, []) /\ exists c, read_file old = Some c /\ reproduces (sample ASCII) c.
Proof.
  destruct (written (sample ASCII) [] (sample_valid ASCII) (sample_good ASCII)) as (s & c & _ & R & A).
  exists (with_points ASCII [ScalarData (Integer Int) (str "x") (str "default") [1]%Z]), s. split; [|exists c; split; assumption].
  apply rejected. intros (_ & _ & _ & K & _). inversion K as [|? ? K1 _]. discriminate K1.
Qed.
