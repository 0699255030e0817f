(** The programs that measure the hashers. *)
From Coq Require Import ZArith String List Bool Lia.
From Coq Require Import ZifyBool ZifyNat.
From Verif Require Import Base SpecSSZ SpecSha SpecSize SpecObj SpecTree SpecClasses SpecPhase0 SpecWire SpecUndef ModelSSZ ModelEth ModelHashTree ModelTree ModelX86 SpecAsm ModelHasher SpecHasher ModelBench
  LemBase LemBits LemTy LemSer LemMatch LemWire LemUndef LemBind LemSize LemCodec LemThmCodec LemThmUndef LemFit LemThmFit LemGrow LemOver LemOverBind LemThmTree LemBreadth LemSwap LemSha LemExec.
Import ListNotations.
Open Scope list_scope.
Open Scope Z_scope.

(** Roots of accepted objects with the hasher of a process *)
Lemma root_process rd wr sect own h N HB t s old b v : block_function rd wr sect own h N HB -> 1 <= N -> breadth v <= N -> zlen b <= 2 ^ 39 ->
  container_pair t s -> wt t old -> bytes_ok b -> deserialize t old b = Ok (true, v) ->
  hash_tree_root HB t v = if trees_fit s v then Ok (lenient_root sha256 s v) else UB.
Proof.
  intros B N1 L L' P Ho Hb E. rewrite <- (accepted_root_exact sha256 t s old b v P Ho Hb E L'). destruct (pair_solid t s P) as (W & M & _).
  unfold hash_tree_root. f_equal.
  apply (tree_swap HB (hash_pairs sha256) N N1 (block_function_pairs _ _ _ _ _ _ _ B)); [|exact W|exact (result_wt t old b true v W Ho Hb E)|exact L].
  intros l (F & n & Ln & Hn). split; [apply pairs_ok, F|]. rewrite (pairs_zlen l n Ln). lia.
Qed.
Lemma rounds_ok HB t v r : hash_tree_root HB t v = Ok r -> forall n, rounds HB t n v = Ok (repeat r n).
Proof. intros E. induction n as [|n IH]; [reflexivity|]. cbn [rounds repeat]. rewrite E. cbn [bind]. rewrite IH. reflexivity. Qed.
Lemma rounds_ub HB t v n : hash_tree_root HB t v = UB -> rounds HB t (S n) v = UB.
Proof. intros E. cbn [rounds]. rewrite E. reflexivity. Qed.

(** A run of the program *)
Section Run.
Context (rd wr : Z -> bool) (sect : nat -> Z) (own : Z -> Prop) (h : hasher_fn) (N : Z) (HB : list chunk -> list chunk).
Context (t : ty) (s : sty) (size : Z) (data : list Z).
Hypothesis B : block_function rd wr sect own h N HB.
Hypothesis P : container_pair t s.
Hypothesis D : bytes_ok data.
Hypothesis S : 0 <= size <= zlen data.
Hypothesis N1 : 1 <= N.
Hypothesis L' : size <= 2 ^ 39.
Let b := firstn (Z.to_nat size) data.
Hypothesis L : forall v, accepts s b v -> breadth v <= N.
Lemma content_ok : bytes_ok b.
Proof. unfold b, bytes_ok in *. rewrite Forall_forall in *. intros x I. apply D. rewrite <- (firstn_skipn (Z.to_nat size) data). apply in_or_app. now left. Qed.
Lemma content_len : zlen b = size.
Proof. unfold b, zlen in *. rewrite firstn_length. lia. Qed.
Lemma run_shape : bench_sha256_impl HB t (Opened (Some size) data) =
  let* (ok, obj) := deserialize t (vt_default (vt t)) b in if negb ok then Ok (1, []) else let* roots := rounds HB t BENCH_ROUNDS obj in Ok (0, roots).
Proof. cbn [bench_sha256_impl]. destruct (zlen data <? size) eqn:E; [lia|reflexivity]. Qed.
Lemma run_state v : accepts s b v -> bench_sha256_impl HB t (Opened (Some size) data) = if trees_fit s v then Ok (0, repeat (lenient_root sha256 s v) 10) else UB.
Proof.
  intros A. destruct (pair_solid t s P) as (W & M & _). pose proof (wt_default t W) as Wd.
  pose proof A as E. apply (acceptance t s (vt_default (vt t)) b v W M Wd content_ok) in E.
  pose proof content_len as Cl. pose proof (root_process rd wr sect own h N HB t s _ b v B N1 (L v A) ltac:(lia) P Wd content_ok E) as R.
  rewrite run_shape, E. cbn [bind negb]. destruct (trees_fit s v).
  - unfold BENCH_ROUNDS. rewrite (rounds_ok HB t v _ R). reflexivity.
  - unfold BENCH_ROUNDS. rewrite (rounds_ub HB t v 9 R). reflexivity.
Qed.
Lemma run_undefined : undefined s b -> bench_sha256_impl HB t (Opened (Some size) data) = UB.
Proof.
  intros U. destruct (pair_solid t s P) as (W & M & _). pose proof (wt_default t W) as Wd.
  apply (undefined_containers t s (vt_default (vt t)) b P Wd content_ok) in U. rewrite run_shape, U. reflexivity.
Qed.
Lemma run_rejected : ~ undefined s b -> ~ (exists v, accepts s b v) -> bench_sha256_impl HB t (Opened (Some size) data) = Ok (1, []).
Proof.
  intros U A. destruct (pair_solid t s P) as (W & M & _). pose proof (wt_default t W) as Wd.
  destruct (proj2 (rejected_containers t s (vt_default (vt t)) b P Wd content_ok) (conj U A)) as [v E]. rewrite run_shape, E. reflexivity.
Qed.
Lemma run_exact : let r := bench_sha256_impl HB t (Opened (Some size) data) in
  (forall roots, r = Ok (0, roots) <-> exists v, accepts s b v /\ trees_fit s v = true /\ roots = repeat (lenient_root sha256 s v) 10) /\
  (forall roots, r = Ok (1, roots) <-> ~ undefined s b /\ ~ (exists v, accepts s b v) /\ roots = []) /\
  (r = UB <-> undefined s b \/ exists v, accepts s b v /\ trees_fit s v = false) /\
  (r = UB \/ exists code roots, r = Ok (code, roots) /\ (code = 0 \/ code = 1)).
Proof.
  intros r. destruct (pair_solid t s P) as (W & M & _). pose proof (wt_default t W) as Wd.
  pose proof (undefined_containers t s (vt_default (vt t)) b P Wd content_ok) as EU.
  assert (EA : forall v, deserialize t (vt_default (vt t)) b = Ok (true, v) <-> accepts s b v) by (intros v; exact (acceptance t s (vt_default (vt t)) b v W M Wd content_ok)).
  destruct (deserialize t (vt_default (vt t)) b) as [[[|] v]| |] eqn:E.
  - pose proof (proj1 (EA v) eq_refl) as A. pose proof (run_state v A) as R. fold r in R.
    assert (Q : forall w, accepts s b w -> w = v) by (intros w X; apply EA in X; congruence).
    assert (U : ~ undefined s b) by (intros X; apply EU in X; discriminate X).
    destruct (trees_fit s v) eqn:T; rewrite R.
    + split; [|split; [|split]].
      * intros roots. split; [intros [= <-]; exists v; auto|]. intros (w & X & _ & ->). rewrite (Q w X). reflexivity.
      * intros roots. split; [discriminate|]. intros (_ & X & _). destruct X. exists v. exact A.
      * split; [discriminate|]. intros [X|(w & X & F)]; [contradiction|]. rewrite (Q w X) in F. congruence.
      * right. exists 0, (repeat (lenient_root sha256 s v) 10). auto.
    + split; [|split; [|split]].
      * intros roots. split; [discriminate|]. intros (w & X & F & _). rewrite (Q w X) in F. congruence.
      * intros roots. split; [discriminate|]. intros (_ & X & _). destruct X. exists v. exact A.
      * split; [|reflexivity]. intros _. right. exists v. auto.
      * now left.
  - assert (U : ~ undefined s b) by (intros X; apply EU in X; discriminate X).
    assert (A : ~ exists v, accepts s b v) by (intros [w X]; apply EA in X; discriminate X).
    pose proof (run_rejected U A) as R. fold r in R. rewrite R. split; [|split; [|split]].
    + intros roots. split; [discriminate|]. intros (w & X & _). destruct A. exists w. exact X.
    + intros roots. split; [intros [= <-]; auto|]. intros (_ & _ & ->). reflexivity.
    + split; [discriminate|]. intros [X|(w & X & _)]; [contradiction|]. destruct A. exists w. exact X.
    + right. exists 1, []. auto.
  - destruct (no_throw t (vt_default (vt t)) b W Wd content_ok). exact E.
  - pose proof (proj1 EU eq_refl) as U. pose proof (run_undefined U) as R. fold r in R. rewrite R. split; [|split; [|split]].
    + intros roots. split; [discriminate|]. intros (w & X & _). apply EA in X. discriminate X.
    + intros roots. split; [discriminate|]. intros (X & _). contradiction.
    + split; [|reflexivity]. intros _. now left.
    + now left.
Qed.
End Run.
Lemma run_encoding rd wr sect own h N HB t s v rest : block_function rd wr sect own h N HB -> container_pair t s -> has_type s v -> offsets_fit s v -> bytes_ok rest ->
  1 <= N -> breadth v <= N -> zlen (serialize t v) <= 2 ^ 39 ->
  bench_sha256_impl HB t (Opened (Some (zlen (serialize t v))) (serialize t v ++ rest)) = Ok (0, repeat (ssz_hash_tree_root sha256 s v) 10).
Proof.
  intros B P Hv O R N1 L L'. destruct (pair_solid t s P) as (W & M & _). pose proof (wt_default t W) as Wd.
  assert (V : wt t v) by (apply (matches_type t s v M) in Hv; tauto).
  assert (F : firstn (Z.to_nat (zlen (serialize t v))) (serialize t v ++ rest) = serialize t v).
  { unfold zlen. rewrite Nat2Z.id, firstn_app, Nat.sub_diag, firstn_all. cbn [firstn]. apply app_nil_r. }
  assert (Sb : bytes_ok (serialize t v)) by (rewrite (matches_serialize t W s v M V); apply ser_ok; now apply (matches_shape t)).
  assert (A : accepts s (firstn (Z.to_nat (zlen (serialize t v))) (serialize t v ++ rest)) v).
  { rewrite F. apply (acceptance t s (vt_default (vt t)) (serialize t v) v W M Wd Sb). now apply (survives_containers t s v). }
  pose proof (zlen_nonneg rest). pose proof (zlen_nonneg (serialize t v)).
  assert (Q : forall w, accepts s (firstn (Z.to_nat (zlen (serialize t v))) (serialize t v ++ rest)) w -> breadth w <= N).
  { intros w X. rewrite F in A, X. apply (acceptance t s (vt_default (vt t)) (serialize t v) _ W M Wd Sb) in A, X. rewrite A in X. injection X as <-. exact L. }
  rewrite (run_state rd wr sect own h N HB t s (zlen (serialize t v)) (serialize t v ++ rest) B P ltac:(apply Forall_app; split; assumption) ltac:(rewrite zlen_app; lia) N1 L' Q v A).
  destruct (lenient_within sha256 s v Hv) as [-> ->]. reflexivity.
Qed.
Lemma run_nothing HB t : bench_sha256_impl HB t Closed = Ok (1, []) /\ (forall size data, zlen data < size -> bench_sha256_impl HB t (Opened (Some size) data) = Ok (1, [])) /\
  (forall open argv, zlen argv < 2 -> bench_main HB t open argv = Ok (1, [])) /\
  (forall open x path more, bench_main HB t open (x :: path :: more) = bench_sha256_impl HB t (open path)).
Proof.
  split; [reflexivity|]. split; [|split].
  - intros size data H. cbn [bench_sha256_impl]. destruct (zlen data <? size) eqn:E; [reflexivity|lia].
  - intros open argv H. unfold bench_main. destruct (zlen argv <? 2) eqn:E; [reflexivity|lia].
  - intros open x path more. unfold bench_main. pose proof (zlen_nonneg more). destruct (zlen (x :: path :: more) <? 2) eqn:E; [unfold zlen in *; cbn [length] in E; lia|]. reflexivity.
Qed.

Lemma bench_extensions c name exts : In (name, exts)
    [("bench_sha256_SSE", [AVX]); ("bench_sha256_AVX", [AVX]); ("bench_sha256_AVX2", [AVX; AVX2]); ("bench_sha256_SHA", [SSE2; SSSE3; SSE4_1; SHA])]%string ->
  exists h, In (name, Ok h) (bench_programs c) /\ forall e, In e exts <-> exists i, executed h i /\ needs i = Some e.
Proof.
  intros I. repeat (destruct I as [[= <- <-]|I]); try destruct I; (eexists; split; [cbn; auto 6|]; intros e; rewrite <- executed_uses; reflexivity).
Qed.
