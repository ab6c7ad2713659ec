(** The test of TriaCheck for the tables and for the moments. *)
From Coq Require Import List ZArith.
From Verif Require Import TriaTab TriaCheck.
Lemma mom_ok : tab_ok 0 momtab = true. Proof. vm_compute. reflexivity. Qed.
Lemma chk_1 : check 0 1 tab_1 = true. Proof. vm_compute. reflexivity. Qed.
Lemma chk_2 : check 2 2 tab_2 = true. Proof. vm_compute. reflexivity. Qed.
Lemma chk_4 : check 3 4 tab_4 = true. Proof. vm_compute. reflexivity. Qed.
Lemma chk_5 : check 3 5 tab_5 = true. Proof. vm_compute. reflexivity. Qed.
Lemma chk_6 : check 3 6 tab_6 = true. Proof. vm_compute. reflexivity. Qed.
Lemma chk_7 : check 3 7 tab_7 = true. Proof. vm_compute. reflexivity. Qed.
Lemma chk_8 : check 3 8 tab_8 = true. Proof. vm_compute. reflexivity. Qed.
Lemma chk_9 : check 4 9 tab_9 = true. Proof. vm_compute. reflexivity. Qed.
Lemma chk_10 : check 4 10 tab_10 = true. Proof. vm_compute. reflexivity. Qed.
Lemma chk_11 : check 4 11 tab_11 = true. Proof. vm_compute. reflexivity. Qed.
Lemma chk_12 : check 4 12 tab_12 = true. Proof. vm_compute. reflexivity. Qed.
Lemma chk_13 : check 5 13 tab_13 = true. Proof. vm_compute. reflexivity. Qed.
Lemma chk_14 : check 5 14 tab_14 = true. Proof. vm_compute. reflexivity. Qed.
Lemma chk_15 : check 5 15 tab_15 = true. Proof. vm_compute. reflexivity. Qed.
Lemma chk_16 : check 5 16 tab_16 = true. Proof. vm_compute. reflexivity. Qed.
Lemma chk_17 : check 5 17 tab_17 = true. Proof. vm_compute. reflexivity. Qed.
Lemma chk_18 : check 5 18 tab_18 = true. Proof. vm_compute. reflexivity. Qed.
Lemma chk_19 : check 5 19 tab_19 = true. Proof. vm_compute. reflexivity. Qed.
Lemma chk_20 : check 6 20 tab_20 = true. Proof. vm_compute. reflexivity. Qed.
Lemma chk_21 : check 6 21 tab_21 = true. Proof. vm_compute. reflexivity. Qed.
Lemma chk_22 : check 6 22 tab_22 = true. Proof. vm_compute. reflexivity. Qed.
Lemma chk_23 : check 6 23 tab_23 = true. Proof. vm_compute. reflexivity. Qed.
Lemma chk_24 : check 6 24 tab_24 = true. Proof. vm_compute. reflexivity. Qed.
Lemma chk_25 : check 6 25 tab_25 = true. Proof. vm_compute. reflexivity. Qed.
Lemma chk_26 : check 6 26 tab_26 = true. Proof. vm_compute. reflexivity. Qed.
Lemma chk_27 : check 6 27 tab_27 = true. Proof. vm_compute. reflexivity. Qed.
Lemma chk_28 : check 7 28 tab_28 = true. Proof. vm_compute. reflexivity. Qed.
Lemma chk_29 : check 6 29 tab_29 = true. Proof. vm_compute. reflexivity. Qed.
Lemma chk_30 : check 7 30 tab_30 = true. Proof. vm_compute. reflexivity. Qed.
Lemma chk_31 : check 7 31 tab_31 = true. Proof. vm_compute. reflexivity. Qed.
Lemma chk_32 : check 7 32 tab_32 = true. Proof. vm_compute. reflexivity. Qed.
Lemma chk_33 : check 7 33 tab_33 = true. Proof. vm_compute. reflexivity. Qed.
Lemma chk_34 : check 7 34 tab_34 = true. Proof. vm_compute. reflexivity. Qed.
Lemma chk_35 : check 7 35 tab_35 = true. Proof. vm_compute. reflexivity. Qed.
Lemma chk_36 : check 7 36 tab_36 = true. Proof. vm_compute. reflexivity. Qed.
Lemma chk_37 : check 7 37 tab_37 = true. Proof. vm_compute. reflexivity. Qed.
Lemma chk_38 : check 7 38 tab_38 = true. Proof. vm_compute. reflexivity. Qed.
Lemma chk_39 : check 7 39 tab_39 = true. Proof. vm_compute. reflexivity. Qed.
Lemma chk_40 : check 7 40 tab_40 = true. Proof. vm_compute. reflexivity. Qed.
Lemma chk_41 : check 8 41 tab_41 = true. Proof. vm_compute. reflexivity. Qed.
Lemma chk_42 : check 7 42 tab_42 = true. Proof. vm_compute. reflexivity. Qed.
Lemma chk_43 : check 8 43 tab_43 = true. Proof. vm_compute. reflexivity. Qed.
Lemma chk_44 : check 8 44 tab_44 = true. Proof. vm_compute. reflexivity. Qed.
Lemma chk_45 : check 8 45 tab_45 = true. Proof. vm_compute. reflexivity. Qed.
Lemma chk_46 : check 8 46 tab_46 = true. Proof. vm_compute. reflexivity. Qed.
Lemma chk_47 : check 8 47 tab_47 = true. Proof. vm_compute. reflexivity. Qed.
Lemma chk_48 : check 8 48 tab_48 = true. Proof. vm_compute. reflexivity. Qed.
Lemma chk_49 : check 8 49 tab_49 = true. Proof. vm_compute. reflexivity. Qed.
Lemma chk_50 : check 8 50 tab_50 = true. Proof. vm_compute. reflexivity. Qed.
