(** A concrete process for the examples beside the theorems about the assembly:
    where the sections, the buffers and the stack are, and what they hold. *)
From Coq Require Import ZArith String List Bool Lia ZifyBool.
From Verif Require Import Base LemBase SpecSha ModelX86 ModelImage SpecAsm.
Import ListNotations.
Open Scope list_scope.
Open Scope Z_scope.
Ltac Zify.zify_post_hook ::= Z.div_mod_to_equations.

Definition s_sect (s : nat) : Z := 8192 * (Z.of_nat s + 1).
Definition s_in : Z := 65537.
Definition s_out : Z := 131074.
Definition s_sp : Z := 262152.
(** from the buffers and stack of one thread to those of another, whose stack is not
    aligned to 32 bytes *)
Definition s_gap : Z := 400016.
(** an address outside the program *)
Definition s_ret : Z := 1000003.
Definition s_ok (x : Z) : bool := (0 <=? x) && (x <? 2 ^ 20).
Definition s_sections : list (list Z) := Eval vm_compute in map section_bytes (seq 0 5).
Definition s_mem (x : Z) : Z :=
  let s := x / 8192 - 1 in
  let bs := nth (Z.to_nat s) s_sections [] in
  if (0 <=? s) && (s <? 5) && (x mod 8192 <? zlen bs) then nth (Z.to_nat (x mod 8192)) bs 0
  else if (s_sp <=? x) && (x <? s_sp + 8) then nth (Z.to_nat (x - s_sp)) (le_bytes 8 s_ret) 0
  else if (s_sp + s_gap <=? x) && (x <? s_sp + s_gap + 8) then nth (Z.to_nat (x - (s_sp + s_gap))) (le_bytes 8 s_ret) 0
  else (3 * x + x / 256) mod 256.
(** the first ([t = 0]) or second ([t = 1]) thread at the start of the routine [f],
    asked for [n] blocks *)
Definition s_state (f : routine) (n t : Z) : state :=
  {| pc := match find_label (r_name f) image 0 with Some p => p | None => 0 end;
     gpr := [1; 2; n; 3; s_sp + s_gap * t; 5; s_in + s_gap * t; s_out + s_gap * t; 8; 9; 10; 11; 12; 13; 14; 15];
     ymm := repeat (repeat 7 8) 16; flags := None; mem := s_mem |}.

Lemma to_bytes_bytes l : bytes_ok (to_bytes l).
Proof. unfold to_bytes. induction l; cbn [flat_map]; [constructor|]. apply Forall_app. split; [apply le_bytes_ok|assumption]. Qed.
Lemma s_sections_ok s : (s < 5)%nat -> nth s s_sections [] = section_bytes s.
Proof.
  intros S. assert (E : s_sections = map section_bytes (seq 0 5)) by (vm_compute; reflexivity).
  rewrite E. rewrite (nth_indep _ [] (section_bytes 0)) by (rewrite map_length, seq_length; exact S).
  rewrite map_nth, seq_nth by exact S. reflexivity.
Qed.
Lemma s_valid f n t : 0 <= n < 2 ^ 64 -> 0 <= t <= 1 -> valid (s_state f n t).
Proof.
  intros N T. constructor.
  - reflexivity.
  - unfold s_state, s_sp, s_in, s_out, s_gap. cbn [gpr]. repeat apply Forall_cons; try apply Forall_nil; lia.
  - reflexivity.
  - repeat constructor.
  - intros x. change (0 <= s_mem x < 256). unfold s_mem. cbv zeta.
    assert (N0 : forall l i, bytes_ok l -> 0 <= nth i l 0 < 256).
    { intros l i B. destruct (nth_in_or_default i l 0) as [I|E]; [|rewrite E; lia]. unfold bytes_ok in B. rewrite Forall_forall in B. exact (B _ I). }
    destruct (_ && _) eqn:E; [rewrite s_sections_ok by lia; apply N0, to_bytes_bytes|]. clear E.
    do 2 (destruct (_ && _); [apply N0, le_bytes_ok|]). apply Z.mod_pos_bound; lia.
Qed.
Lemma map_nth_seq (l : list Z) : map (fun i => nth i l 0) (seq 0 (length l)) = l.
Proof.
  induction l as [|a l IH]; [reflexivity|]. cbn [length seq map nth]. f_equal. rewrite <- seq_shift, map_map. exact IH.
Qed.
Lemma s_consts s : (s < 5)%nat -> zlen (section_bytes s) <= 8192 ->
  bytes_at s_mem (s_sect s) (length (section_bytes s)) = section_bytes s.
Proof.
  intros S L. unfold bytes_at. rewrite <- (map_nth_seq (section_bytes s)) at 2. apply map_ext_in. intros i I. apply in_seq in I.
  unfold s_mem, s_sect. cbv zeta. unfold zlen in *.
  replace ((8192 * (Z.of_nat s + 1) + Z.of_nat i) / 8192 - 1) with (Z.of_nat s) by lia.
  replace ((8192 * (Z.of_nat s + 1) + Z.of_nat i) mod 8192) with (Z.of_nat i) by lia. rewrite !Nat2Z.id, s_sections_ok by exact S.
  replace (_ && _) with true by lia. reflexivity.
Qed.
Lemma s_entry f n t : In (r_name f) ["sha256_1_avx"; "sha256_4_avx"; "sha256_8_avx2"; "sha256_shani"]%string ->
  find_label (r_name f) image 0 = Some (pc (s_state f n t)).
Proof.
  intros I. unfold s_state. cbn [pc]. repeat destruct I as [<-|I]; try destruct I; vm_compute; reflexivity.
Qed.
Lemma s_area s : section_area s_sect s = (8192 * (Z.of_nat s + 1), zlen (section_bytes s)).
Proof. reflexivity. Qed.
Ltac areas := unfold read_only, owned;
    repeat match goal with |- context [getr ?s ?r] => match goal with G : getr s r = _ |- _ => rewrite G end end;
    cbn [map app]; rewrite ?s_area.
Ltac done L0 L1 L2 L3 L4 := unfold apart, inside, s_ok; cbn [fst snd]; rewrite ?L0, ?L1, ?L2, ?L3, ?L4; try lia.
Lemma s_call f n t : In f [sha256_1_avx; sha256_4_avx; sha256_8_avx2; sha256_shani] -> 0 <= n <= 1000 -> 0 <= t <= 1 ->
  call s_ok s_ok s_sect (r_consts f) (r_scratch f) (r_depth f) n (s_state f n t) /\
  find_label (r_name f) image 0 = Some (pc (s_state f n t)).
Proof.
  intros F N T. split.
  2: { apply s_entry. cbn [In] in *. intuition subst; auto 10. }
  assert (L0 : zlen (section_bytes 0) = 592) by (vm_compute; reflexivity).
  assert (L1 : zlen (section_bytes 1) = 2192) by (vm_compute; reflexivity).
  assert (L2 : zlen (section_bytes 2) = 4392) by (vm_compute; reflexivity).
  assert (L3 : zlen (section_bytes 3) = 560) by (vm_compute; reflexivity).
  assert (L4 : zlen (section_bytes 4) = 64) by (vm_compute; reflexivity).
  assert (G : getr (s_state f n t) rsp = 262152 + 400016 * t /\ getr (s_state f n t) rsi = 65537 + 400016 * t /\ getr (s_state f n t) rdi = 131074 + 400016 * t)
    by (repeat split; reflexivity).
  destruct G as (G1 & G2 & G3).
  assert (R : r_depth f <= 1720 /\ 0 <= r_depth f) by (cbn [In] in F; intuition subst; cbn; lia).
  cbn [In] in F.
  destruct F as [<-|[<-|[<-|[<-|[]]]]]; cbn [r_consts r_scratch r_depth sha256_1_avx sha256_4_avx sha256_8_avx2 sha256_shani] in *;
  (constructor;
   [ apply s_valid; lia | lia
   | areas; repeat (apply Forall_cons; [done L0 L1 L2 L3 L4|]); apply Forall_nil
   | areas; repeat (apply Forall_cons; [done L0 L1 L2 L3 L4; intros x; lia|]); apply Forall_nil
   | areas; repeat (apply Forall_cons; [done L0 L1 L2 L3 L4; intros x; lia|]); apply Forall_nil
   | areas; repeat (apply FOP_cons; [repeat (apply Forall_cons; [done L0 L1 L2 L3 L4; intros x; cbn [fst snd]; lia|]); apply Forall_nil|]); apply FOP_nil
   | areas; repeat (apply Forall_cons; [repeat (apply Forall_cons; [done L0 L1 L2 L3 L4; intros x; cbn [fst snd]; lia|]); apply Forall_nil|]); apply Forall_nil
   | rewrite G1; split; lia
   | repeat (apply Forall_cons; [reflexivity|]); apply Forall_nil
   | repeat (apply Forall_cons; [apply s_consts; lia|]); apply Forall_nil ]).
Qed.
