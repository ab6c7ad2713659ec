(** C94, C95: VTK files reproduce the object they are written for. *)
From Coq Require Import String Ascii List Arith NArith ZArith QArith Qabs Bool.
Import ListNotations.
From Verif Require Import Base MshModel VtkFileModel VtkFileSpec VtkFileProofs4 VtkFileProofs5.
Local Open Scope list_scope.
Local Open Scope nat_scope.

(** C94: text format. *)
Theorem C94_text : forall f old, format_ f = ASCII -> valid f -> good f ->
  exists s c, WriteToFile f old = (Ok tt, s) /\ read_file s = Some c /\ reproduces f c.
Proof. exact (fun f old _ => written f old). Qed.
Print Assumptions C94_text.

Theorem C94_accepted : forall f old, good f ->
  (fst (WriteToFile f old) = Ok tt <-> valid f) /\ (fst (WriteToFile f old) = Throw <-> ~ valid f).
Proof. exact reject_iff. Qed.
Print Assumptions C94_accepted.

(** Numbers of type unsigned char are declared as char. *)
Theorem C94_unsigned_char_refuted : exists f s c, format_ f = ASCII /\ valid f /\
  point_data f = [ScalarData (Integer UChar) (str "u") (str "default") [200; 1; 2]%Z] /\
  WriteToFile f [] = (Ok tt, s) /\ read_file s = Some c /\
  c_point_data c = [Scalars (str "u") (Integer Char) (str "default") [Whole (-56); Whole 1; Whole 2]%Z].
Proof. exact (unsigned_char ASCII). Qed.
Print Assumptions C94_unsigned_char_refuted.

(** Different points, the same file. *)
Theorem C94_precision_refuted : exists f g, valid f /\ good f /\ valid g /\ good g /\ points (grid_ f) <> points (grid_ g) /\
  (exists x y, nth_error (points (grid_ f)) 2 = Some (x, f1, f0) /\ nth_error (points (grid_ g)) 2 = Some (y, f1, f0) /\
    exists p q, value_of Float x = Finite p /\ value_of Float y = Finite q /\ ~ (p == q)%Q) /\
  WriteToFile f [] = WriteToFile g [].
Proof. exact precision. Qed.
Print Assumptions C94_precision_refuted.

(** An empty array of global data is counted, but not written. *)
Theorem C94_empty_field_refuted : exists f s, format_ f = ASCII /\ valid f /\ field_data f = [RealArray Double (str "time") []] /\
  WriteToFile f [] = (Ok tt, s) /\ read_file s = None.
Proof. exact empty_field. Qed.
Print Assumptions C94_empty_field_refuted.

(** A name with a blank is accepted. *)
Theorem C94_names_refuted : exists f s, format_ f = ASCII /\ valid f /\
  point_data f = [ScalarData (Integer Int) (str "my data") (str "default") [1; 2; 3]%Z] /\ WriteToFile f [] = (Ok tt, s) /\ read_file s = None.
Proof. exact (blank_name ASCII). Qed.
Print Assumptions C94_names_refuted.

(** A rejected object destroys the previous contents of the file. *)
Theorem C94_previous_refuted : exists f old, WriteToFile f old = (Throw, []) /\ exists c, read_file old = Some c /\ reproduces (sample ASCII) c.
Proof. exact previous_lost. Qed.
Print Assumptions C94_previous_refuted.

Example C94_example : valid (sample ASCII) /\ good (sample ASCII).
Proof. exact (sample_both ASCII). Qed.

(** C95: binary format. *)
Theorem C95_binary : forall f old, format_ f = BINARY -> valid f -> good f ->
  exists s c, WriteToFile f old = (Ok tt, s) /\ read_file s = Some c /\ reproduces f c.
Proof. exact (fun f old _ => written f old). Qed.
Print Assumptions C95_binary.

Theorem C95_unsigned_char_refuted : exists f s c, format_ f = BINARY /\ valid f /\
  point_data f = [ScalarData (Integer UChar) (str "u") (str "default") [200; 1; 2]%Z] /\
  WriteToFile f [] = (Ok tt, s) /\ read_file s = Some c /\
  c_point_data c = [Scalars (str "u") (Integer Char) (str "default") [Whole (-56); Whole 1; Whole 2]%Z].
Proof. exact (unsigned_char BINARY). Qed.
Print Assumptions C95_unsigned_char_refuted.

Example C95_example : valid (sample BINARY) /\ good (sample BINARY).
Proof. exact (sample_both BINARY). Qed.
