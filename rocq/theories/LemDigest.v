(** SHA-256 of 64 bytes on little-endian words, and words of memory. *)
From Coq Require Import ZArith String List Bool Lia ZifyBool ZifyNat.
From Verif Require Import Base SpecSha ModelX86 ModelImage LemBase SymWord LemSymWord SymX86 LemSymX86 SymFrag LemSymFrag LemX86 SpecAsm.
Import ListNotations.
Open Scope list_scope.
Open Scope Z_scope.
Ltac Zify.zify_post_hook ::= Z.div_mod_to_equations.

(** ** Lists of bytes and words *)
Lemma list4 {A} (l : list A) n : length l = (4 * S n)%nat ->
  exists a b c d r, l = a :: b :: c :: d :: r /\ length r = (4 * n)%nat.
Proof.
  destruct l as [|a [|b [|c [|d r]]]]; cbn [length]; intros H; try lia.
  exists a, b, c, d, r. split; [reflexivity|lia].
Qed.
Lemma to_of_bytes : forall n l, bytes_ok l -> length l = (4 * n)%nat -> to_bytes (of_bytes n l) = l.
Proof.
  induction n as [|n IH]; intros l B L; [destruct l; [reflexivity|discriminate]|].
  apply list4 in L as (a & b & c & d & r & -> & L). cbn [of_bytes firstn skipn]. unfold to_bytes in *. cbn [flat_map].
  rewrite IH; [|inversion B; subst; inversion H2; subst; inversion H4; subst; inversion H6; subst; assumption|exact L].
  change 4%nat with (length [a; b; c; d]). rewrite le_bytes_val; [reflexivity|].
  inversion B as [|x1 l1 Ba B1]; subst. inversion B1 as [|x2 l2 Bb B2]; subst.
  inversion B2 as [|x3 l3 Bc B3]; subst. inversion B3; subst. repeat (apply Forall_cons; [assumption|]); apply Forall_nil.
Qed.
Lemma of_to_bytes : forall ws, Forall (fun x => 0 <= x < 2 ^ 32) ws -> of_bytes (length ws) (to_bytes ws) = ws.
Proof.
  induction 1 as [|w ws R F IH]; [reflexivity|]. cbn [length of_bytes]. unfold to_bytes in *. cbn [flat_map].
  rewrite firstn_app, skipn_app, le_bytes_length, (firstn_all2 (le_bytes 4 w)), (skipn_all2 (le_bytes 4 w))
    by (rewrite le_bytes_length; lia).
  change (4 - 4)%nat with 0%nat. cbn [firstn skipn app]. rewrite IH, app_nil_r, le_val_bytes.
  f_equal. apply Z.mod_small. exact R.
Qed.
Lemma bytes4 a b c d : bytes_ok [a; b; c; d] -> byte_ok a /\ byte_ok b /\ byte_ok c /\ byte_ok d.
Proof. intros B. inversion B as [|? ? A B1]; subst. inversion B1 as [|? ? C B2]; subst. inversion B2 as [|? ? D B3]; subst. inversion B3; subst. auto. Qed.
Lemma bswap_le a b c d : bytes_ok [a; b; c; d] -> bswap (le_val [a; b; c; d]) = be_val 0 [a; b; c; d].
Proof.
  intros B. unfold bswap. change 4%nat with (length [a; b; c; d]). rewrite le_bytes_val by exact B.
  cbn [rev app le_val be_val]. lia.
Qed.
Lemma words_of_bytes : forall n l, bytes_ok l -> length l = (4 * n)%nat -> words n l = map bswap (of_bytes n l).
Proof.
  induction n as [|n IH]; intros l B L; [reflexivity|].
  apply list4 in L as (a & b & c & d & r & -> & L). cbn [words of_bytes firstn skipn map].
  pose proof B as B'. inversion B as [|x1 l1 Ba B1]; subst. inversion B1 as [|x2 l2 Bb B2]; subst.
  inversion B2 as [|x3 l3 Bc B3]; subst. inversion B3 as [|x4 l4 Bd B4]; subst.
  rewrite <- IH by assumption. rewrite bswap_le; [reflexivity|repeat (apply Forall_cons; [assumption|]); apply Forall_nil].
Qed.
Lemma words_app : forall n l r, length l = (4 * n)%nat -> words n (l ++ r) = words n l.
Proof.
  induction n as [|n IH]; intros l r L; [reflexivity|].
  apply list4 in L as (a & b & c & d & r' & -> & L). cbn [words app firstn skipn]. rewrite IH by exact L. reflexivity.
Qed.
Lemma bswap_be v : 0 <= v < 2 ^ 32 -> le_bytes 4 (bswap v) = be_bytes 4 v.
Proof.
  intros R. unfold bswap. replace 4%nat with (length (rev (le_bytes 4 v))) at 1 by (rewrite rev_length; apply le_bytes_length).
  rewrite le_bytes_val by (apply Forall_rev, le_bytes_ok). cbn [le_bytes rev be_bytes app]. reflexivity.
Qed.
Lemma bswap_range v : 0 <= bswap v < 2 ^ 32.
Proof.
  unfold bswap. assert (B : bytes_ok (rev (le_bytes 4 v))) by (apply Forall_rev, le_bytes_ok).
  apply le_val_bound in B. unfold zlen in B. rewrite rev_length, le_bytes_length in B. exact B.
Qed.
Lemma block_digest_range ws : Forall (fun x => 0 <= x < 2 ^ 32) (block_digest ws).
Proof.
  unfold block_digest. match goal with |- Forall _ (map _ ?l) => generalize l end. intros l.
  apply Forall_forall. intros x X. apply in_map_iff in X as (p & <- & _). apply bswap_range.
Qed.
Lemma length_combine {A B} (l : list A) (r : list B) : length (combine l r) = Nat.min (length l) (length r).
Proof. apply combine_length. Qed.
Lemma round_length st kw : length st = 8%nat -> length (round st kw) = 8%nat.
Proof. intros L. do 9 (destruct st as [|? st]; try discriminate L). reflexivity. Qed.
Lemma rounds_length l : forall st, length st = 8%nat -> length (fold_left round l st) = 8%nat.
Proof. induction l as [|x l IH]; intros st L; cbn [fold_left]; [exact L|]. apply IH, round_length, L. Qed.
Lemma compress_length h m : length h = 8%nat -> length (compress h m) = 8%nat.
Proof.
  intros L. unfold compress. cbv zeta. rewrite map_length, combine_length, rounds_length by exact L. rewrite L. reflexivity.
Qed.
Lemma block_digest_length ws : length (block_digest ws) = 8%nat.
Proof. unfold block_digest. rewrite map_length. apply compress_length, compress_length. reflexivity. Qed.

(** ** The digest of 64 bytes *)
Theorem sha256_64 bs : bytes_ok bs -> length bs = 64%nat ->
  sha256 bs = to_bytes (block_digest (of_bytes 16 bs)).
Proof.
  intros B L. unfold sha256. cbv zeta.
  assert (P : pad bs = bs ++ ([128] ++ repeat 0 55 ++ be_bytes 8 512)).
  { unfold pad. rewrite L. reflexivity. }
  assert (L2 : length (pad bs) = 128%nat) by (rewrite P, app_length, L; reflexivity).
  rewrite L2. change (Nat.div 128 64) with 2%nat. cbn [hash_blocks]. rewrite P, words_app by exact L.
  rewrite skipn_app, L. rewrite (skipn_all2 bs) by lia. change (64 - 64)%nat with 0%nat. rewrite app_nil_l.
  change (words 16 (skipn 0 ([128] ++ repeat 0 55 ++ be_bytes 8 512))) with pad64.
  rewrite words_of_bytes by assumption. unfold block_digest.
  pose proof (compress_range (compress H0 (map bswap (of_bytes 16 bs))) pad64) as R.
  revert R. generalize (compress (compress H0 (map bswap (of_bytes 16 bs))) pad64). clear.
  intros l R. unfold to_bytes. induction R as [|x l Rx R IH]; [reflexivity|]. cbn [flat_map map]. rewrite IH, bswap_be by exact Rx. reflexivity.
Qed.

(** ** Bytes of memory *)
Lemma bytes_at_length m a n : length (bytes_at m a n) = n.
Proof. unfold bytes_at. rewrite map_length, seq_length. reflexivity. Qed.
Lemma bytes_at_ok m a n : (forall x, 0 <= m x < 256) -> bytes_ok (bytes_at m a n).
Proof. intros M. apply Forall_forall. intros x X. apply in_map_iff in X as (i & <- & _). apply M. Qed.
Lemma bytes_at_ext m m' a n : (forall x, a <= x < a + Z.of_nat n -> m x = m' x) -> bytes_at m a n = bytes_at m' a n.
Proof. intros H. unfold bytes_at. apply map_ext_in. intros i I. apply in_seq in I. apply H. lia. Qed.
Lemma bytes_at_app m a n k : bytes_at m a (n + k) = bytes_at m a n ++ bytes_at m (a + Z.of_nat n) k.
Proof.
  unfold bytes_at. rewrite seq_app, map_app. f_equal. change (0 + n)%nat with n. rewrite <- (Nat.add_0_r n) at 1.
  rewrite map_seq_shift. apply map_ext. intros i. f_equal. lia.
Qed.
Lemma mws_bytes bv m k o n : 0 <= bv k + o -> bv k + o + 4 * Z.of_nat n <= 2 ^ 64 ->
  mws bv m k o n = of_bytes n (bytes_at m (bv k + o) (4 * n)).
Proof.
  intros A B. rewrite <- (of_bytes_load bv m). f_equal. unfold bytes_at. apply map_ext_in. intros i I. apply in_seq in I.
  f_equal. unfold ad. rewrite w64_small; lia.
Qed.
Lemma mws_app bv m k : forall n n' o, mws bv m k o (n + n') = mws bv m k o n ++ mws bv m k (o + 4 * Z.of_nat n) n'.
Proof.
  induction n as [|n IH]; intros n' o; cbn [mws Nat.add app].
  - f_equal. lia.
  - rewrite IH. do 3 f_equal. lia.
Qed.
Lemma mws_length bv m k : forall n o, length (mws bv m k o n) = n.
Proof. induction n as [|n IH]; intros o; cbn [mws length]; auto. Qed.
Lemma app_inv_length {A} (a b c d : list A) : length a = length c -> a ++ b = c ++ d -> a = c /\ b = d.
Proof.
  revert c. induction a as [|x a IH]; intros [|y c] L E; try discriminate L; cbn [app] in E; [auto|].
  injection E as -> E. destruct (IH c) as [-> ->]; auto.
Qed.
Lemma firstn_exact {A} n (a b : list A) : length a = n -> firstn n (a ++ b) = a.
Proof. intros <-. rewrite firstn_app, firstn_all, Nat.sub_diag. apply app_nil_r. Qed.
Lemma skipn_exact {A} n (a b : list A) : length a = n -> skipn n (a ++ b) = b.
Proof. intros <-. rewrite skipn_app, skipn_all, Nat.sub_diag. reflexivity. Qed.
Lemma blocks_digest_S b ws : blocks_digest (S b) ws = block_digest (firstn 16 ws) ++ blocks_digest b (skipn 16 ws).
Proof. reflexivity. Qed.
Lemma blocks_digest_length : forall b ws, length (blocks_digest b ws) = (8 * b)%nat.
Proof.
  induction b as [|b IH]; intros ws; [reflexivity|]. cbn [blocks_digest]. rewrite app_length, IH, block_digest_length. lia.
Qed.
Lemma digest_blocks bv m m' k k' : forall b o o',
  mws bv m' k' o' (8 * b) = blocks_digest b (mws bv m k o (16 * b)) ->
  forall i, (i < b)%nat ->
  mws bv m' k' (o' + 32 * Z.of_nat i) 8 = block_digest (mws bv m k (o + 64 * Z.of_nat i) 16).
Proof.
  induction b as [|b IH]; intros o o' E i I; [lia|].
  replace (8 * S b)%nat with (8 + 8 * b)%nat in E by lia. replace (16 * S b)%nat with (16 + 16 * b)%nat in E by lia.
  rewrite !mws_app, blocks_digest_S in E.
  rewrite firstn_exact, skipn_exact in E by apply mws_length.
  apply app_inv_length in E as [E1 E2]; [|rewrite mws_length, block_digest_length; reflexivity].
  destruct i as [|i].
  - rewrite !Z.mul_0_r, !Z.add_0_r. exact E1.
  - specialize (IH _ _ E2 i ltac:(lia)).
    replace (o' + 32 * Z.of_nat (S i)) with (o' + 4 * Z.of_nat 8 + 32 * Z.of_nat i) by lia.
    replace (o + 64 * Z.of_nat (S i)) with (o + 4 * Z.of_nat 16 + 64 * Z.of_nat i) by lia. exact IH.
Qed.
Lemma digest_bytes bv m m' k k' o o' :
  (forall x, 0 <= m x < 256) -> (forall x, 0 <= m' x < 256) ->
  0 <= bv k + o -> bv k + o + 64 <= 2 ^ 64 -> 0 <= bv k' + o' -> bv k' + o' + 32 <= 2 ^ 64 ->
  mws bv m' k' o' 8 = block_digest (mws bv m k o 16) ->
  bytes_at m' (bv k' + o') 32 = sha256 (bytes_at m (bv k + o) 64).
Proof.
  intros M M' A1 A2 B1 B2 E.
  assert (E1 : mws bv m' k' o' 8 = of_bytes 8 (bytes_at m' (bv k' + o') 32)) by (apply (mws_bytes bv m' k' o' 8); lia).
  assert (E2 : mws bv m k o 16 = of_bytes 16 (bytes_at m (bv k + o) 64)) by (apply (mws_bytes bv m k o 16); lia).
  rewrite E1, E2 in E. rewrite (sha256_64 (bytes_at m (bv k + o) 64) (bytes_at_ok _ _ _ M) (bytes_at_length _ _ _)).
  rewrite <- E. symmetry. apply (to_of_bytes 8); [apply bytes_at_ok; exact M'|apply bytes_at_length].
Qed.
