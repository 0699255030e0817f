(** The instructions executed during a call. *)
From Coq Require Import ZArith String List Bool Lia ZifyBool ZifyNat.
From Verif Require Import Base SpecSha ModelX86 ModelAsm1 ModelAsm4 ModelAsm8 ModelAsmNi ModelImage LemBase LemSymX86
  SpecAsm FragAsm LemAsm LemAsm8 ModelHasher SamplesAsm LemHasher SpecHasher LemSha.
Import ListNotations.
Open Scope list_scope.
Open Scope Z_scope.

Definition range_of (h : hasher_fn) : nat * nat :=
  match h with F_sse => range_1 | F_avx => range_4 | F_avx2 => range_8 | F_shani => range_ni end.
Lemma nth_error_app_l {A} (a b : list A) k x : nth_error (a ++ b) k = Some x -> (k < length a)%nat -> In x a.
Proof. intros E L. rewrite nth_error_app1 in E by exact L. exact (nth_error_In _ _ E). Qed.
Lemma in_range h p i : fetch image p = Some i ->
  Z.of_nat (fst (range_of h)) <= p < Z.of_nat (fst (range_of h)) + Z.of_nat (snd (range_of h)) -> In i (code_of h).
Proof.
  unfold fetch. destruct (0 <=? p) eqn:P; [|discriminate]. intros E R.
  assert (L : (fst (range_of h) <= Z.to_nat p < fst (range_of h) + snd (range_of h))%nat) by (clear - P R; lia).
  clear P R. revert E L. generalize (Z.to_nat p). clear p. intros k E L. unfold image in E.
  destruct h; cbn [range_of fst snd range_1 range_4 range_8 range_ni code_of] in *.
  - exact (nth_error_app_l _ _ _ _ E (proj2 L)).
  - rewrite app_assoc in E. apply nth_error_app_l in E; [|exact (proj2 L)].
    apply in_app_iff in E. apply in_app_iff. tauto.
  - rewrite (app_assoc code_4), app_assoc in E. apply nth_error_app_l in E; [|exact (proj2 L)].
    rewrite !in_app_iff in *. tauto.
  - rewrite (app_assoc code_4), app_assoc in E. rewrite nth_error_app2 in E by exact (proj1 L).
    exact (nth_error_In _ _ E).
Qed.
(** what can be seen of a call *)
Definition seen_of (h : hasher_fn) (sect : nat -> Z) (si di sp n : Z) : list (Z * list Z) :=
  match h with
  | F_sse => seen_1 sect si di sp
  | F_avx => seen_4 sect si di sp n
  | F_avx2 => seen_8 sect si di sp n
  | F_shani => seen_ni sect si di sp n
  end.
Lemma call_runs h n rd wr sect st : let f := routine_of h in
  call rd wr sect (r_consts f) (r_scratch f) (r_depth f) n st -> find_label (r_name f) image 0 = Some (pc st) ->
  match h with F_sse => n = 1 | _ => getr st rdx = n end ->
  runs rd wr sect (range_of h) (seen_of h sect (getr st rsi) (getr st rdi) (getr st rsp) n) st (fun st' => returned sect (r_scratch f) (r_depth f) n st st').
Proof.
  intros f C L N. assert (G : forall T (P Q : state -> Prop), runs rd wr sect (range_of h) T st (fun s => P s /\ Q s) -> runs rd wr sect (range_of h) T st P).
  { intros T P Q (k & s & S & E & H & _). exists k, s. auto. }
  destruct h; subst f; cbn [routine_of r_consts r_scratch r_depth r_name sha256_1_avx sha256_4_avx sha256_8_avx2 sha256_shani range_of seen_of] in *; subst n; eapply G.
  - exact (avx1_runs rd wr sect st C L).
  - exact (avx4_runs rd wr sect _ st C L eq_refl).
  - exact (avx8_strolls rd wr sect st C L).
  - exact (ni_runs rd wr sect _ st C L eq_refl).
Qed.
Lemma executed_code h i : executed h i -> In i (code_of h).
Proof.
  intros (rd & wr & sect & n & st & j & st' & C & L & N & R & S & F).
  destruct (call_runs h n rd wr sect st C L N) as (k & e & W & _ & E). apply walk_steps in W as [W I].
  apply (in_range h (pc st')); [exact F|]. destruct (Nat.lt_ge_cases j k) as [J|J]; [exact (I j st' J S)|]. exfalso.
  rewrite <- (E_pc _ _ _ _ _ _ E) in R. replace j with (k + (j - k))%nat in S by lia. rewrite steps_app, W in S. cbn [obind] in S.
  apply steps_halted in S; [|exact R]. subst st'. congruence.
Qed.

(** ** Extensions that are needed in the sample process *)
Definition executes_n (n : Z) (f : routine) (k : nat) (e : extension) : bool :=
  match option_map pc (steps s_ok s_ok s_sect image k (s_state f n 0)) with
  | Some p => match fetch image p with
              | Some i => match needs i with Some e' => ext_eqb e' e | None => false end
              | None => false
              end
  | None => false
  end.
Definition executes_at := executes_n 1.
Lemma executes_blocks n h k e : 1 <= n <= 1000 -> (h = F_sse -> n = 1) -> executes_n n (routine_of h) k e = true ->
  exists i, executed h i /\ needs i = Some e.
Proof.
  unfold executes_n. intros Hn Hs W. assert (I : In (routine_of h) [sha256_1_avx; sha256_4_avx; sha256_8_avx2; sha256_shani]) by (destruct h; cbn; auto).
  destruct (s_call _ n 0 I ltac:(lia) ltac:(lia)) as [A1 A2].
  destruct (steps s_ok s_ok s_sect image k (s_state (routine_of h) n 0)) as [st'|] eqn:S; [|discriminate W]. cbn [option_map] in W.
  destruct (fetch image (pc st')) as [i|] eqn:F; [|discriminate W]. exists i.
  destruct (needs i) as [e'|]; [|discriminate W]. apply ext_eqb_eq in W. subst e'. split; [|reflexivity].
  exists s_ok, s_ok, s_sect, n, (s_state (routine_of h) n 0), k, st'.
  split; [exact A1|]. split; [exact A2|]. split; [destruct h; auto|]. split; [apply s_returns; lia|]. split; [exact S|exact F].
Qed.
Lemma executes h k e : executes_at (routine_of h) k e = true -> exists i, executed h i /\ needs i = Some e.
Proof. apply executes_blocks; [lia|reflexivity]. Qed.
Lemma at_1 : executes_at sha256_1_avx 9 AVX = true.
Proof. vm_compute. reflexivity. Qed.
Lemma at_8 : executes_at sha256_8_avx2 33 AVX = true.
Proof. vm_compute. reflexivity. Qed.
Lemma at_ni : executes_at sha256_shani 1 SSE2 = true /\ executes_at sha256_shani 15 SSSE3 = true /\ executes_at sha256_shani 235 SSE4_1 = true.
Proof. vm_compute. repeat split; reflexivity. Qed.

Lemma best_executes c h : best_sha256_implementation c = Ok h ->
  ((forall i, executed h i -> runs_on c i = true) <->
   if reported c SHA then reported c SSE2 = true /\ reported c SSSE3 = true /\ reported c SSE4_1 = true else reported c AVX = true).
Proof.
  intros E. split.
  - intros R. destruct (best_choice c h E) as [_ Hh].
    assert (X : forall k e, executes_at (routine_of h) k e = true -> reported c e = true).
    { intros k e W. destruct (executes h k e W) as (i & I & Ne). specialize (R i I). unfold runs_on in R. rewrite Ne in R. exact R. }
    clear R E. destruct (reported c SHA) eqn:S1; [|destruct (reported c AVX2) eqn:S2; [|destruct (reported c AVX) eqn:S3]]; subst h.
    + split; [exact (X _ _ (proj1 at_ni))|]. split; [exact (X _ _ (proj1 (proj2 at_ni)))|exact (X _ _ (proj2 (proj2 at_ni)))].
    + exact (X _ _ at_8).
    + reflexivity.
    + exact (eq_trans (eq_sym S3) (X _ _ at_1)).
  - intros R i I. apply (best_runs c h E) in R. rewrite forallb_forall in R. exact (R i (executed_code h i I)).
Qed.

(** ** The routine that was asked for *)
Definition uses (h : hasher_fn) : list extension :=
  match h with F_sse | F_avx => [AVX] | F_avx2 => [AVX; AVX2] | F_shani => [SSE2; SSSE3; SSE4_1; SHA] end.
Lemma at_4 : executes_at sha256_4_avx 19 AVX = true.
Proof. vm_compute. reflexivity. Qed.
Lemma at_8_avx2 : executes_n 8 sha256_8_avx2 31 AVX2 = true.
Proof. vm_compute. reflexivity. Qed.
Lemma at_ni_sha : executes_at sha256_shani 18 SHA = true.
Proof. vm_compute. reflexivity. Qed.
Lemma code_uses h : forallb (fun i => match needs i with None => true | Some e => existsb (ext_eqb e) (uses h) end) (code_of h) = true.
Proof. destruct h; vm_compute; reflexivity. Qed.
Lemma executed_uses h e : In e (uses h) <-> exists i, executed h i /\ needs i = Some e.
Proof.
  split.
  - intros I. destruct h; cbn [uses In] in I.
    + destruct I as [<-|[]]. exact (executes F_sse _ _ at_1).
    + destruct I as [<-|[]]. exact (executes F_avx _ _ at_4).
    + destruct I as [<-|[<-|[]]]; [exact (executes F_avx2 _ _ at_8)|].
      exact (executes_blocks 8 F_avx2 _ _ ltac:(lia) ltac:(discriminate) at_8_avx2).
    + destruct I as [<-|[<-|[<-|[<-|[]]]]].
      * exact (executes F_shani _ _ (proj1 at_ni)).
      * exact (executes F_shani _ _ (proj1 (proj2 at_ni))).
      * exact (executes F_shani _ _ (proj2 (proj2 at_ni))).
      * exact (executes F_shani _ _ at_ni_sha).
  - intros (i & I & N). pose proof (code_uses h) as C. rewrite forallb_forall in C. specialize (C i (executed_code h i I)).
    rewrite N in C. apply existsb_exists in C. destruct C as (e' & I' & E). apply ext_eqb_eq in E. now subst.
Qed.
Lemma requested c impl name exts :
  In (impl, name, exts)
     [(1, "sha256_1_avx"%string, [AVX]); (2, "sha256_4_avx"%string, [AVX]); (4, "sha256_8_avx2"%string, [AVX; AVX2]);
      (8, "sha256_shani"%string, [SSE2; SSSE3; SSE4_1; SHA])] ->
  exists h, Hasher c impl = Ok h /\ r_name (routine_of h) = name /\
    forall e, In e exts <-> exists i, executed h i /\ needs i = Some e.
Proof.
  intros I. repeat (destruct I as [[= <- <- <-]|I]); try destruct I; (eexists; split; [reflexivity|split; [reflexivity|]]; intros e; rewrite <- executed_uses; reflexivity).
Qed.
Lemma not_requested c impl : ~ In impl [1; 2; 4; 8] -> 7 <= c_max c ->
  exists h, Hasher c impl = Ok h /\
    r_name (routine_of h) = (if reported c SHA then "sha256_shani" else if reported c AVX2 then "sha256_8_avx2"
                            else if reported c AVX then "sha256_4_avx" else "sha256_1_avx")%string.
Proof.
  intros N M. assert (E : Hasher c impl = best_sha256_implementation c).
  { unfold Hasher, IMPL_SHA, IMPL_AVX2, IMPL_AVX, IMPL_SSE. cbn [In] in N.
    repeat (match goal with |- context [impl =? ?k] => destruct (Z.eqb_spec impl k); [lia|] end). reflexivity. }
  rewrite E. destruct (best_sha256_implementation c) as [h| |] eqn:B.
  - exists h. split; [reflexivity|]. destruct (best_choice c h B) as [_ ->].
    destruct (reported c SHA), (reported c AVX2), (reported c AVX); reflexivity.
  - unfold best_sha256_implementation, implemented in B. destruct (c_max c <? 7) eqn:L; [lia|]. discriminate B.
  - unfold best_sha256_implementation, implemented in B. destruct (c_max c <? 7) eqn:L; [lia|]. discriminate B.
Qed.
