(** Which vectors pass the test program, exactly, and on which it is undefined. *)
From Coq Require Import ZArith String List Bool Lia ZifyBool ZifyNat.
From Verif Require Import Base SpecSSZ ModelSSZ ModelBytes ModelHashTree ModelTree ModelYaml ModelPred ModelTest SpecText SpecObj ModelEth
  SpecPhase0 SpecClasses SpecTree SpecLoose SpecEqual LemBase LemTy LemPred LemThmCodec LemThmTree LemMatch
  LemText LemDecode LemThmText LemLoose LemBytes LemEqual.
From Verif Require LemCodec.
Import ListNotations.
Open Scope string_scope.
Open Scope list_scope.
Open Scope Z_scope.

Section Vector.
Variable e : externals.
Variable H : list Z -> list Z.
Variable t : ty.
Variable s : sty.
Variable des : val -> list Z -> outcome (bool * val).
Variable uncompress : list Z -> option (list Z).
Variable value roots : ynode.
Variable content : list Z.
Hypothesis He : fits e.
Hypothesis Hc : container_pair t s.
Hypothesis Hbreadth : forall v, reads_as e s value v -> breadth v <= 2 ^ 42.

Lemma default_typed : wt t (vt_default (vt t)).
Proof. apply wt_default. apply (pair_facts t s Hc). Qed.
Lemma root_default : wt (TBytes 32) (vt_default (vt (TBytes 32))).
Proof. apply wt_default. reflexivity. Qed.
Lemma value_read v : as_T (yvt e t) value = Ok v <-> reads_as e s value v.
Proof. apply (as_exact e t s (exact_container e t s Hc) default_typed value). Qed.
Lemma value_undefined : as_T (yvt e t) value = UB <-> breaks e s value.
Proof. apply (as_exact e t s (exact_container e t s Hc) default_typed value). Qed.
Lemma node_read node v : as_T (yvt e (TBytes 32)) node = Ok v <-> reads_as e (SByteVector 32) node v.
Proof. apply (as_exact e _ _ (exact_bytes e 32 ltac:(lia)) root_default node). Qed.
Lemma node_undefined node : as_T (yvt e (TBytes 32)) node = UB <-> breaks e (SByteVector 32) node.
Proof. apply (as_exact e _ _ (exact_bytes e 32 ltac:(lia)) root_default node). Qed.
Lemma read_typed v : reads_as e s value v -> wt t v.
Proof.
  intros R. destruct (pair_facts t s Hc) as (W & Y & _). apply value_read in R. unfold as_T in R.
  destruct (y_decode (yvt e t) _ value) as [[ok w]| |] eqn:D; cbn [bind] in R; try discriminate.
  destruct ok; [|discriminate]. injection R as ->.
  assert (Df : y_default (yvt e t) = vt_default (vt t)) by (destruct t; reflexivity). rewrite Df in D.
  exact (decode_typed e He t W Y _ value true v default_typed D).
Qed.
Lemma yget_bound name node : yget roots name = Ok node <-> exists m, roots = YMap m /\ bound_to m name node.
Proof.
  destruct roots as [str|l|m]; cbn [yget].
  1,2: split; [discriminate|]; intros (m & E & _); discriminate E.
  rewrite ymap_get_bound. split; [eauto|]. intros (m' & [= <-] & B). exact B.
Qed.
Lemma yget_no_ub n name : yget n name <> UB.
Proof.
  destruct n as [str|l|m]; cbn [yget]; try discriminate. induction m as [|[k y] m IH]; cbn [ymap_get]; [discriminate|].
  destruct (String.eqb k name); [discriminate|exact IH].
Qed.
Lemma written_ok v : reads_as e s value v -> bytes_ok (ssz_serialize s v).
Proof.
  intros R. destruct (pair_facts t s Hc) as (W & _ & M & _). rewrite <- (matches_serialize t W s v M (read_typed v R)).
  exact (LemCodec.g_ok _ _ _ (good_of t W) v (read_typed v R)).
Qed.
(** The program once the value has been read. *)
Lemma after_value v : reads_as e s value v ->
  test_ssz e (hash_pairs H) t des uncompress value roots content =
  if trees_fit s v then
    let* node := yget roots "root" in
    let* root := as_T (yvt e (TBytes 32)) node in
    match uncompress content with
    | None => Throw
    | Some data =>
        if zlen data >? zlen (ssz_serialize s v) then UB
        else
          let output := data ++ repeat 0 (length (ssz_serialize s v) - length data) in
          let* (_, obj) := des (vt_default (vt t)) output in
          Ok (op_eq (TBytes 32) (VBytes (lenient_root H s v)) root, op_eq t obj v, bytes_eqb (ssz_serialize s v) output)
    end
  else UB.
Proof.
  intros R. pose proof (read_typed v R) as Wv. unfold test_ssz. rewrite (proj2 (value_read v) R). cbn [bind].
  rewrite (root_beyond H t s v Hc Wv (Hbreadth v R)). destruct (trees_fit s v); [|reflexivity]. cbn [bind].
  destruct (pair_facts t s Hc) as (W & _ & M & _). rewrite (matches_serialize t W s v M Wv). reflexivity.
Qed.
Lemma root_node node root : as_T (yvt e (TBytes 32)) node = Ok root -> exists r, root = VBytes r.
Proof. intros A. apply node_read in A. inversion A; subst. eexists. reflexivity. Qed.

Lemma vector_exact c p name :
  In (name, t) (all_classes c) -> In (name, s) (phase0_containers p) ->
  (forall b ok obj, bytes_ok b -> des (vt_default (vt t)) b = Ok (ok, obj) -> wt t obj) ->
  (test_ssz e (hash_pairs H) t des uncompress value roots content = Ok (true, true, true) <->
   exists v m node data k ok obj,
     reads_as e s value v /\ trees_fit s v = true /\
     roots = YMap m /\ bound_to m "root" node /\ reads_as e (SByteVector 32) node (VBytes (lenient_root H s v)) /\
     uncompress content = Some data /\ ssz_serialize s v = data ++ repeat 0 k /\
     des (vt_default (vt t)) (ssz_serialize s v) = Ok (ok, obj) /\ agree (compared name) s obj v).
Proof.
  intros Hin Hip Hd. split.
  - intros E. destruct (as_T (yvt e t) value) as [v| |] eqn:A; try (unfold test_ssz in E; rewrite A in E; discriminate E).
    apply value_read in A. rewrite (after_value v A) in E. destruct (trees_fit s v) eqn:F; [|discriminate E].
    destruct (yget roots "root") as [node| |] eqn:G; cbn [bind] in E; try discriminate E.
    apply yget_bound in G. destruct G as (m & Em & B).
    destruct (as_T (yvt e (TBytes 32)) node) as [root| |] eqn:Ar; cbn [bind] in E; try discriminate E.
    destruct (root_node _ _ Ar) as (r & ->). apply node_read in Ar.
    destruct (uncompress content) as [data|] eqn:U; [|discriminate E].
    destruct (zlen data >? _) eqn:Z0; [discriminate E|]. cbn zeta in E.
    destruct (des _ (data ++ _)) as [[ok obj]| |] eqn:D; cbn [bind] in E; try discriminate E.
    cbn [op_eq] in E. destruct (bytes_eqb (lenient_root H s v) r) eqn:E1; [|discriminate E].
    destruct (op_eq t obj v) eqn:E2; [|discriminate E].
    destruct (bytes_eqb (ssz_serialize s v) _) eqn:E3; [|discriminate E].
    apply bytes_eqb_eq in E1. apply bytes_eqb_eq in E3. subst r. rewrite <- E3 in D.
    apply (equal_exact c p name t s obj v Hin Hip (Hd _ _ _ (written_ok v A) D) (read_typed v A)) in E2.
    exists v, m, node, data, (length (ssz_serialize s v) - length data)%nat, ok, obj.
    split; [exact A|]. split; [exact F|]. split; [exact Em|]. split; [exact B|]. split; [exact Ar|]. auto.
  - intros (v & m & node & data & k & ok & obj & A & F & Em & B & Ar & U & S & D & G).
    rewrite (after_value v A), F. assert (Y : yget roots "root" = Ok node) by (apply yget_bound; eauto).
    rewrite Y. cbn [bind]. apply node_read in Ar. rewrite Ar. cbn [bind]. rewrite U.
    assert (L : length (ssz_serialize s v) = (length data + k)%nat) by (rewrite S, app_length, repeat_length; reflexivity).
    destruct (Z.gtb_spec (zlen data) (zlen (ssz_serialize s v))) as [C|_]; [unfold zlen in C; lia|].
    replace (length (ssz_serialize s v) - length data)%nat with k by lia. cbn zeta. rewrite <- S, D. cbn [bind op_eq].
    apply (equal_exact c p name t s obj v Hin Hip (Hd _ _ _ (written_ok v A) D) (read_typed v A)) in G. rewrite G.
    assert (R : forall l, bytes_eqb l l = true) by (intros l; apply bytes_eqb_eq; reflexivity). rewrite !R. reflexivity.
Qed.
Lemma vector_undefined :
  test_ssz e (hash_pairs H) t des uncompress value roots content = UB <->
  breaks e s value \/
  exists v, reads_as e s value v /\
    (trees_fit s v = false \/
     trees_fit s v = true /\ exists m node, roots = YMap m /\ bound_to m "root" node /\
       (breaks e (SByteVector 32) node \/
        exists r data, reads_as e (SByteVector 32) node r /\ uncompress content = Some data /\
          (zlen (ssz_serialize s v) < zlen data \/
           exists k, length (ssz_serialize s v) = (length data + k)%nat /\ des (vt_default (vt t)) (data ++ repeat 0 k) = UB))).
Proof.
  split.
  - intros E. destruct (as_T (yvt e t) value) as [v| |] eqn:A.
    2: unfold test_ssz in E; rewrite A in E; discriminate E.
    2: left; now apply value_undefined.
    right. apply value_read in A. exists v. split; [exact A|]. rewrite (after_value v A) in E.
    destruct (trees_fit s v) eqn:F; [right; split; [reflexivity|]|left; reflexivity].
    destruct (yget roots "root") as [node| |] eqn:G; cbn [bind] in E; try discriminate E.
    2: now apply yget_no_ub in G.
    apply yget_bound in G. destruct G as (m & Em & B). exists m, node. split; [exact Em|]. split; [exact B|].
    destruct (as_T (yvt e (TBytes 32)) node) as [root| |] eqn:Ar; cbn [bind] in E; try discriminate E.
    2: left; now apply node_undefined.
    right. apply node_read in Ar. destruct (uncompress content) as [data|] eqn:U; [|discriminate E].
    exists root, data. split; [exact Ar|]. split; [reflexivity|].
    destruct (Z.gtb_spec (zlen data) (zlen (ssz_serialize s v))) as [C|C]; [left; exact C|right].
    cbn zeta in E. exists (length (ssz_serialize s v) - length data)%nat. split; [unfold zlen in C; lia|].
    destruct (des _ (data ++ _)) as [[ok obj]| |]; cbn [bind] in E; try discriminate E. reflexivity.
  - intros [B|(v & A & X)].
    + unfold test_ssz. rewrite (proj2 value_undefined B). reflexivity.
    + rewrite (after_value v A). destruct X as [F|(F & m & node & Em & B & X)]; rewrite F; [reflexivity|].
      assert (Y : yget roots "root" = Ok node) by (apply yget_bound; eauto). rewrite Y. cbn [bind].
      destruct X as [X|(r & data & Ar & U & X)].
      * apply node_undefined in X. rewrite X. reflexivity.
      * apply node_read in Ar. rewrite Ar. cbn [bind]. rewrite U.
        destruct (Z.gtb_spec (zlen data) (zlen (ssz_serialize s v))) as [C|C]; [reflexivity|].
        destruct X as [X|(k & L & D)]; [lia|]. replace (length (ssz_serialize s v) - length data)%nat with k by lia.
        cbn zeta. rewrite D. reflexivity.
Qed.
End Vector.
