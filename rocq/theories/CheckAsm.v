(** The fragments pass. *)
From Coq Require Import ZArith.
From Verif Require Import SymFrag FragAsm.
Open Scope Z_scope.
Lemma ok_avx1 : frag_ok (piece_frag avx1) = true.
Proof. vm_compute. reflexivity. Qed.
Lemma ok_avx4_start : frag_ok (piece_frag avx4_start) = true.
Proof. vm_compute. reflexivity. Qed.
Lemma ok_avx4_four : frag_ok (piece_frag avx4_four) = true.
Proof. vm_compute. reflexivity. Qed.
Lemma ok_avx4_few : frag_ok (piece_frag avx4_few) = true.
Proof. vm_compute. reflexivity. Qed.
Lemma ok_avx4_one : frag_ok (piece_frag avx4_one) = true.
Proof. vm_compute. reflexivity. Qed.
Lemma ok_avx4_end : frag_ok (piece_frag avx4_end) = true.
Proof. vm_compute. reflexivity. Qed.
Lemma ok_avx8_start_0 : frag_ok (piece_frag (avx8_start 0)) = true.
Proof. vm_compute. reflexivity. Qed.
Lemma ok_avx8_start_16 : frag_ok (piece_frag (avx8_start 16)) = true.
Proof. vm_compute. reflexivity. Qed.
Lemma ok_avx8_eight_0 : frag_ok (piece_frag (avx8_eight 0)) = true.
Proof. vm_compute. reflexivity. Qed.
Lemma ok_avx8_few_0 : frag_ok (piece_frag (avx8_few 0)) = true.
Proof. vm_compute. reflexivity. Qed.
Lemma ok_avx8_few_16 : frag_ok (piece_frag (avx8_few 16)) = true.
Proof. vm_compute. reflexivity. Qed.
Lemma ok_avx8_end_0 : frag_ok (piece_frag (avx8_end 0)) = true.
Proof. vm_compute. reflexivity. Qed.
Lemma ok_avx8_end_16 : frag_ok (piece_frag (avx8_end 16)) = true.
Proof. vm_compute. reflexivity. Qed.
Lemma ok_ni_start : frag_ok (piece_frag ni_start) = true.
Proof. vm_compute. reflexivity. Qed.
Lemma ok_ni_two : frag_ok (piece_frag ni_two) = true.
Proof. vm_compute. reflexivity. Qed.
Lemma ok_ni_few : frag_ok (piece_frag ni_few) = true.
Proof. vm_compute. reflexivity. Qed.
Lemma ok_ni_one : frag_ok (piece_frag ni_one) = true.
Proof. vm_compute. reflexivity. Qed.
Lemma ok_ni_end : frag_ok (piece_frag ni_end) = true.
Proof. vm_compute. reflexivity. Qed.
Lemma ok_avx8_eight_16 : frag_ok (piece_frag (avx8_eight 16)) = true.
Proof. vm_compute. reflexivity. Qed.
