(** Soundness of [frag_ok] (SymFrag.v). *)
From Coq Require Import ZArith String List Bool Lia ZifyBool ZifyNat.
From Verif Require Import Base SpecSha ModelX86 SpecTime ModelAsm ModelImage LemBase SymWord LemSymWord SymX86 LemSymVec LemSymX86 SymFrag.
Import ListNotations.
Open Scope list_scope.
Open Scope Z_scope.
Ltac Zify.zify_post_hook ::= Z.div_mod_to_equations.

(** ** Digests of one block, on little-endian words *)
Definition bswap (v : Z) : Z := le_val (rev (le_bytes 4 v)).
Definition block_digest (ws : list Z) : list Z :=
  map bswap (compress (compress H0 (map bswap ws)) pad64).
Fixpoint blocks_digest (n : nat) (ws : list Z) : list Z :=
  match n with
  | O => []
  | S n' => block_digest (firstn 16 ws) ++ blocks_digest n' (skipn 16 ws)
  end.
Lemma smap_sound' f g : sound1 f g -> forall a T T' c, smap f T a = (T', c) ->
  ext T T' /\ forall env va, Sat env T' -> Forall2 (wrel env) a va -> Forall2 (wrel env) c (map g va).
Proof.
  intros F a T T' c E. apply (smap_sound f g F) in E as [X E]. split; [exact X|].
  intros env va S A. apply (E env va (length a) S). split; auto.
Qed.
Lemma compress_range h m : Forall (fun x => 0 <= x < 2 ^ 32) (compress h m).
Proof.
  unfold compress. cbv zeta. match goal with |- Forall _ (map _ ?l) => generalize l end. intros l.
  apply Forall_forall. intros x X. apply in_map_iff in X as (p & <- & _). apply wadd_range.
Qed.
Lemma const_F2 env l : Forall (fun x => 0 <= x < 2 ^ 32) l -> Forall2 (wrel env) (map sconst l) l.
Proof. induction 1; cbn [map]; constructor; auto. apply wrel_const. assumption. Qed.
Lemma forallb_range l : forallb (fun x => (0 <=? x) && (x <? 4294967296)) l = true -> Forall (fun x => 0 <= x < 2 ^ 32) l.
Proof.
  intros H. rewrite forallb_forall in H. apply Forall_forall. intros x X. apply H in X.
  change 4294967296 with (2 ^ 32) in X. lia.
Qed.
Lemma H0_range : Forall (fun x => 0 <= x < 2 ^ 32) H0.
Proof. apply forallb_range. reflexivity. Qed.
Lemma pad64_range : Forall (fun x => 0 <= x < 2 ^ 32) pad64.
Proof. apply forallb_range. reflexivity. Qed.
Lemma sblock_sound T ws T' l : sblock T ws = (T', l) ->
  ext T T' /\ forall env vs, Sat env T' -> Forall2 (wrel env) ws vs -> Forall2 (wrel env) l (block_digest vs).
Proof.
  intros E. unfold sblock in E.
  assert (SW : sound1 (fun T w => let (T', x) := sbswap T w in share T' x) bswap).
  { intros T1 a T2 c E1. stp sbswap_sound E1. fin share_sound E1. split; [extt|].
    intros env va S A. wr. }
  stp (smap_sound' _ _ SW) E. stp scompress_sound E. stp scompress_sound E.
  apply (smap_sound' _ _ sbswap_sound) in E as [X E]. split; [extt|].
  intros env vs S A. unfold block_digest. apply E; [exact S|].
  match goal with H : forall env vh vm, _ |- Forall2 _ l2 _ => apply H end; [satt| | |apply compress_range].
  - match goal with H : forall env vh vm, _ |- Forall2 _ l1 _ => apply H end; [satt| | |apply H0_range].
    + apply const_F2, H0_range.
    + match goal with H : forall env va, _ |- Forall2 _ l0 _ => apply H end; [satt|exact A].
  - apply const_F2, pad64_range.
Qed.
Lemma F2_firstn {A B} (R : A -> B -> Prop) n : forall l vs, Forall2 R l vs -> Forall2 R (firstn n l) (firstn n vs).
Proof. induction n; intros l vs F; cbn [firstn]; [constructor|]. destruct F; constructor; auto. Qed.
Lemma F2_skipn {A B} (R : A -> B -> Prop) n : forall l vs, Forall2 R l vs -> Forall2 R (skipn n l) (skipn n vs).
Proof. induction n; intros l vs F; cbn [skipn]; [exact F|]. destruct F; auto. Qed.
Lemma sblocks_sound : forall n T ws T' l, sblocks n T ws = (T', l) ->
  ext T T' /\ forall env vs, Sat env T' -> Forall2 (wrel env) ws vs -> Forall2 (wrel env) l (blocks_digest n vs).
Proof.
  induction n as [|n IH]; intros T ws T' l E; cbn [sblocks] in E.
  - apply pair_equal_spec in E as [<- <-]. split; [apply ext_refl|]. intros. constructor.
  - stp sblock_sound E. stp IH E. apply pair_equal_spec in E as [<- <-]. split; [extt|].
    intros env vs S A. cbn [blocks_digest]. apply Forall2_app.
    + match goal with H : forall env vs, _ |- Forall2 _ l0 _ => apply H end; [satt|apply F2_firstn; exact A].
    + match goal with H : forall env vs, _ |- Forall2 _ l1 _ => apply H end; [satt|apply F2_skipn; exact A].
Qed.
Fixpoint env_words (env : positive -> Z) (n : nat) (i : positive) : list Z :=
  match n with O => [] | S n' => env i :: env_words env n' (Pos.succ i) end.
Lemma atoms_sound env : (forall i, 0 <= env i < 2 ^ 32) ->
  forall n i, Forall2 (wrel env) (atoms n i) (env_words env n i).
Proof. intros R. induction n; intros i; cbn [atoms env_words]; constructor; auto. apply wrel_atom. exact R. Qed.

(** ** Matching *)
Lemma geqb_eq a b : geqb a b = true -> a = b.
Proof.
  destruct a as [w|k o|c], b as [w'|k' o'|c']; cbn; try discriminate; intros H.
  - apply andb_prop in H as [A B]. apply Nat.eqb_eq in A. apply Z.eqb_eq in B. congruence.
  - apply Z.eqb_eq in H. congruence.
Qed.
Lemma gmatch_sound bv env e a v : gmatch e a = true -> grel bv env a v -> grel bv env e v.
Proof.
  intros M G. assert (C : e = SW SX \/ geqb e a = true) by (destruct e as [[]| |]; auto).
  destruct C as [->|C]; [exact Logic.I|]. apply geqb_eq in C. subst. exact G.
Qed.
Lemma gmatch_pc bv e a v : gmatch e a = true -> pcrel bv a v -> pcrel bv e v.
Proof.
  intros M G. assert (C : e = SW SX \/ geqb e a = true) by (destruct e as [[]| |]; auto).
  destruct C as [->|C]; [exact Logic.I|]. apply geqb_eq in C. subst. exact G.
Qed.
Lemma wmatch_sound env e a v : wmatch e a = true -> wrel env a v -> wrel env e v.
Proof.
  intros M G. assert (C : e = SX \/ weqb e a = true) by (destruct e; auto).
  destruct C as [->|C]; [exact Logic.I|]. apply weqb_eq in C. subst. exact G.
Qed.
Lemma matches_F2 {A B} (f : A -> A -> bool) (R R' : A -> B -> Prop) :
  (forall e a v, f e a = true -> R a v -> R' e v) ->
  forall x y vs, matches f x y = true -> Forall2 R y vs -> Forall2 R' x vs.
Proof.
  intros H. induction x as [|e x IH]; intros [|a y] vs M F; try discriminate; inversion F; subst; [constructor|].
  cbn [matches] in M. apply andb_prop in M as [M1 M2]. constructor; eauto.
Qed.
Lemma matches_length {A} (f : A -> A -> bool) : forall x y, matches f x y = true -> length x = length y.
Proof.
  induction x as [|a x IH]; intros [|b y] M; try discriminate; [reflexivity|].
  cbn [matches] in M. apply andb_prop in M as [_ M]. cbn. f_equal. auto.
Qed.
Lemma vmatch_sound env e a v : matches wmatch e a = true -> vrel env 8 a v -> vrel env 8 e v.
Proof.
  intros M [L F]. split; [rewrite (matches_length _ _ _ M); exact L|].
  exact (matches_F2 wmatch (wrel env) (wrel env) (wmatch_sound env) e a v M F).
Qed.
Lemma cmatch_sound bv env e a v : cmatch e a = true -> crel bv env a v -> crel bv env e v.
Proof.
  destruct e as [w|g|g], a as [w'|g'|g']; cbn [cmatch crel]; try discriminate; intros M.
  - apply wmatch_sound. exact M.
  - intros (x & G & E). exists x. split; [exact (gmatch_sound bv env g g' x M G)|exact E].
  - intros (x & G & E). exists x. split; [exact (gmatch_sound bv env g g' x M G)|exact E].
Qed.
Lemma cond_eqb_eq a b : cond_eqb a b = true -> a = b.
Proof.
  destruct a as [[f j] x], b as [[f' j'] x']. cbn [cond_eqb]. intros H.
  apply andb_prop in H as [H X]. apply andb_prop in H as [F J]. apply eqb_prop in X.
  assert (j = j') by (destruct j, j'; congruence || discriminate).
  assert (f = f'); [|congruence].
  destruct f, f'; cbn [feqb] in F; try discriminate.
  - apply andb_prop in F as [F1 F2]. apply geqb_eq in F1. apply Z.eqb_eq in F2. congruence.
  - apply geqb_eq in F. congruence.
Qed.
Lemma matches_eq {A} (f : A -> A -> bool) : (forall a b, f a b = true -> a = b) ->
  forall x y, matches f x y = true -> x = y.
Proof.
  intros H. induction x as [|a x IH]; intros [|b y] M; try discriminate; [reflexivity|].
  cbn [matches] in M. apply andb_prop in M as [M1 M2]. f_equal; auto.
Qed.

(** ** Memory *)
Lemma mk_cells_in k i c : forall l M, tget i (nth k (fold_left add_cell l M) TLeaf) = Some c ->
  In (k, i, c) l \/ tget i (nth k M TLeaf) = Some c.
Proof.
  induction l as [|[[k' i'] c'] l IH]; intros M H; cbn [fold_left] in H; [right; exact H|].
  apply IH in H as [H|H]; [left; right; exact H|]. cbn [add_cell] in H.
  destruct (Nat.eq_dec k k') as [->|N].
  - destruct (nth_upd_eq (tset i' c' (nth k' M TLeaf)) M k' TLeaf) as [Q|[Q _]]; rewrite Q in H.
    + destruct (Pos.eq_dec i' i) as [->|N].
      * rewrite tget_set_same in H. apply some_inj in H. subst c'. left. left. reflexivity.
      * rewrite tget_set_other in H by exact N. auto.
    + rewrite tget_leaf in H. discriminate.
  - rewrite nth_upd_ne in H by exact N. auto.
Qed.
Lemma nth_repeat_leaf k n i (c : cell) : tget i (nth k (repeat TLeaf n) TLeaf) = Some c -> False.
Proof.
  revert k. induction n as [|n IH]; intros [|k]; cbn [repeat nth]; rewrite ?tget_leaf; try discriminate. apply IH.
Qed.

Section Frag.
Variables RD WR : Z -> bool.
Variable sect : nat -> Z.
Variable bv : nat -> Z.
Definition cell_ok (rgs : list region) (env : positive -> Z) (m : Z -> Z) (x : nat * positive * cell) : Prop :=
  let '(k, i, c) := x in offp i + 4 <= rsize (rg rgs k) /\ crel bv env c (mw bv m k (offp i)).
Lemma mk_cells_mrel rgs env m l : Forall (cell_ok rgs env m) l -> mrel rgs bv env (mk_cells l) m.
Proof.
  intros F k i c G. apply mk_cells_in in G as [G|G]; [|destruct (nth_repeat_leaf _ _ _ _ G)].
  rewrite Forall_forall in F. exact (F _ G).
Qed.

Variable F : frag.
Hypothesis HF : frag_ok F = true.
Hypothesis HL : Layout RD WR sect image (f_rgs F) bv.
Variable st : state.
Variable e0 : positive -> Z.
Hypothesis He0 : forall i, 0 <= e0 i < 2 ^ 32.
Definition agrees (env : positive -> Z) : Prop :=
  (forall i, 0 <= env i < 2 ^ 32) /\ forall i, (i <= f_natoms F)%positive -> env i = e0 i.
Hypothesis Hpc : pc st = f_entry F.
Hypothesis Hgpr : forall env, agrees env -> Forall2 (grel bv env) (f_gpr F) (gpr st).
Hypothesis Hvec : forall env, agrees env -> Forall2 (vrel env 8) (f_vec F) (ymm st).
Hypothesis Hcells : forall env, agrees env -> Forall (cell_ok (f_rgs F) env (mem st)) (f_cells F).
Hypothesis Hconds : forall env, agrees env -> Forall (cond_ok bv env) (f_conds F).

Notation lo := (Z.of_nat (fst (f_range F))).
Notation hi := (lo + Z.of_nat (snd (f_range F))).
Theorem frag_sound : exists st' env, walk RD WR sect image lo hi (length (f_seen F)) st = Some st' /\
  map (leaked sect image) (states RD WR sect image (length (f_seen F)) st) = map (seen bv) (f_seen F) /\
  Forall (in_regions (f_rgs F)) (f_seen F) /\ agrees env /\
  pcrel bv (f_pc' F) (pc st') /\
  Forall2 (grel bv env) (f_gpr' F) (gpr st') /\
  (Forall2 (vrel env 8) (f_vec' F) (ymm st') /\ length (ymm st') = 16%nat) /\
  Forall (cell_ok (f_rgs F) env (mem st')) (f_cells' F) /\
  (let D := blocks_digest (f_blocks F) (env_words e0 (16 * f_blocks F) 1) in
   mws bv (mem st') 6 0 (length D) = D) /\
  framed (f_rgs F) bv (mem st) (mem st').
Proof.
  unfold frag_ok in HF. destruct (digests (f_blocks F)) as [T l] eqn:ET. unfold digests in ET. pose proof ET as ED.
  apply sblocks_sound in ET as [_ ET].
  apply andb_prop in HF as [HF1 HR]. apply andb_prop in HF1 as [HV _]. apply Nat.eqb_eq in HV.
  assert (EF : f_seen F = match f_run F T with Some (o, _) => o | None => [] end) by (unfold f_seen, digests in *; rewrite ED; reflexivity).
  destruct (f_run F T) as [[o S']|] eqn:ER; [|discriminate]. apply andb_prop in HR as [HR _]. unfold f_run in ER.
  unfold f_end_ok in HR.
  apply andb_prop in HR as [HR CF]. apply andb_prop in HR as [HR CT]. apply andb_prop in HR as [HR CC].
  apply andb_prop in HR as [HR CK]. apply andb_prop in HR as [HR CM]. apply andb_prop in HR as [HR CV]. apply andb_prop in HR as [CP CG].
  set (env := env_of e0 (stbl S')).
  assert (SA : Sat env (stbl S')) by (apply env_of_sat; assumption).
  assert (AG : agrees env).
  { split; [exact (proj1 SA)|]. intros i I. apply env_of_free; [exact He0|].
    destruct (tget i (nodes (stbl S'))) as [w|] eqn:G; [|reflexivity]. exfalso.
    pose proof (tall_get _ _ _ _ _ CF G) as Q. cbv beta in Q. lia. }
  pose proof (srun_sound RD WR sect image (f_rgs F) bv env (mem st) HL _ _ _ _ _ _ _ ER) as (X & _ & H).
  apply (matches_eq _ cond_eqb_eq) in CC. rewrite <- CC in H.
  destruct (H SA (Hconds env AG) st) as (st' & ST & R & TR & IR).
  { constructor; cbn [f_start spc sgprs svecs sfl smem]; auto.
    - exact Logic.I.
    - apply mk_cells_mrel. auto.
    - intros x _. reflexivity. }
  rewrite EF. exists st', env. split; [exact ST|]. split; [exact TR|]. split; [exact IR|]. split; [exact AG|].
  rewrite forallb_app in CM. apply andb_prop in CM as [CM CD].
  assert (HC : forall cs, forallb (has_cell (smem S')) cs = true -> Forall (cell_ok (f_rgs F) env (mem st')) cs).
  { intros cs C. rewrite forallb_forall in C. apply Forall_forall. intros [[k i] c] I. apply C in I.
    cbn [has_cell] in I. destruct (tget i (nth k (smem S') TLeaf)) as [c'|] eqn:G; [|discriminate].
    apply (R_mem _ _ _ _ _ _ R) in G as [G1 G2]. split; [exact G1|]. exact (cmatch_sound bv env c c' _ I G2). }
  split; [exact (gmatch_pc bv _ _ _ CP (R_pc _ _ _ _ _ _ R))|].
  split; [exact (matches_F2 _ _ _ (gmatch_sound bv env) _ _ _ CG (R_gpr _ _ _ _ _ _ R))|].
  split; [split; [exact (matches_F2 _ _ _ (vmatch_sound env) _ _ _ CV (R_vec _ _ _ _ _ _ R))|]|].
  { rewrite <- (F2_length _ _ _ (R_vec _ _ _ _ _ _ R)). exact (R_len _ _ _ _ _ _ R). }
  split; [exact (HC _ CM)|]. split; [|exact (R_frame _ _ _ _ _ _ R)].
  apply HC in CD.
  assert (W : Forall2 (wrel env) l (blocks_digest (f_blocks F) (env_words env (16 * f_blocks F) 1))).
  { apply ET; [exact (Sat_ext _ _ _ X SA)|]. apply atoms_sound. exact (proj1 AG). }
  assert (EW : env_words env (16 * f_blocks F) 1 = env_words e0 (16 * f_blocks F) 1).
  { assert (Q : forall n i, (Pos.to_nat i + n <= 16 * f_blocks F + 1)%nat -> env_words env n i = env_words e0 n i).
    { induction n as [|m IH]; intros i I; cbn [env_words]; [reflexivity|]. f_equal; [|apply IH; lia].
      apply (proj2 AG). unfold f_natoms. lia. }
    apply Q. lia. }
  rewrite EW in W. cbv zeta. clear - W CD CK.
  generalize dependent (blocks_digest (f_blocks F) (env_words e0 (16 * f_blocks F) 1)).
  intros vs W. change 0 with (offp 1). revert CK CD. generalize 1%positive.
  induction W as [|w v l vs W1 W2 IH]; intros i CK C; cbn [length mws word_cells forallb] in *; [reflexivity|].
  inversion C as [|x0 l0 C1 C2]; subst. destruct C1 as [_ C1]. apply andb_prop in CK as [CK1 CK2]. f_equal.
  - cbn [crel] in C1. apply (wrel_fun env w); auto. destruct w; [discriminate CK1|discriminate|discriminate].
  - replace (offp i + 4) with (offp (Pos.succ i)) by (unfold offp; lia). apply IH; assumption.
Qed.
End Frag.
Lemma f_seen_code F : frag_ok F = true -> map fst (f_seen F) = expand (f_code F).
Proof.
  intros H. unfold frag_ok, f_seen in *. destruct (digests (f_blocks F)) as [T l]. cbn [fst].
  apply andb_prop in H as [_ H]. destruct (f_run F T) as [[o S']|]; [|discriminate]. apply andb_prop in H as [_ H].
  apply (matches_eq Z.eqb); [|exact H]. intros a b. apply Z.eqb_eq.
Qed.

