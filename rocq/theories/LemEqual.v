(** What [op_eq] compares in the containers. *)
From Coq Require Import ZArith String List Bool Lia.
From Verif Require Import Base SpecSSZ ModelSSZ ModelEth ModelPred SpecObj SpecPhase0 SpecClasses SpecEqual LemTy LemPred.
Import ListNotations.
Open Scope string_scope.
Open Scope list_scope.
Open Scope Z_scope.

Definition equal_always (t : ty) : bool :=
  match t with
  | TVector _ _ | TListF _ _ | TListV _ _ => true
  | TClass ci _ => negb (ci_eq ci)
  | _ => false
  end.
Lemma equal_always_ok t a b : equal_always t = true -> op_eq t a b = true.
Proof.
  destruct t; try discriminate; intros E; try reflexivity. apply op_eq_inherited. cbn in E. now apply negb_true_iff.
Qed.
Fixpoint fields_ok (names : list string) (fs : list (string * sty)) (ts : list ty) : bool :=
  match fs, ts with
  | [], [] => true
  | f :: fs', t :: ts' => (if named names (fst f) then eq_own t else equal_always t) && fields_ok names fs' ts'
  | _, _ => false
  end.
Definition class_ok (names : list string) (s : sty) (t : ty) : bool :=
  match s, t with
  | SContainer fs, TClass ci ts => if ci_eq ci then fields_ok names fs ts else match names with [] => true | _ => false end
  | _, _ => false
  end.
Lemma class_exact names s t a b : class_ok names s t = true -> wt t a -> wt t b ->
  (op_eq t a b = true <-> agree names s a b).
Proof.
  destruct s as [| | | | | | |fs]; try discriminate. destruct t as [| | | | | | | |ci ts]; try discriminate.
  cbn [class_ok]. intros C Ha Hb. destruct a as [| | | |l]; try contradiction. destruct b as [| | | |m]; try contradiction.
  cbn [wt] in Ha, Hb. cbn [op_eq agree]. destruct (ci_eq ci).
  - revert ts l m C Ha Hb. induction fs as [|[fn fsty] fs IH]; intros [|t ts] l m C Ha Hb; try discriminate C.
    + destruct l, m; try contradiction. split; [|reflexivity]. intros _ k ? ? N. destruct k; discriminate N.
    + cbn [fields_ok fst] in C. apply andb_true_iff in C. destruct C as [C Cs].
      destruct l as [|v l], m as [|w m]; try contradiction. cbn [all2] in Ha, Hb.
      destruct Ha as [Hv Hl], Hb as [Hw Hm]. specialize (IH ts l m Cs Hl Hm).
      rewrite andb_true_iff, IH. clear IH. destruct (named names fn) eqn:N.
      * rewrite (op_eq_own t v w C Hv Hw). split.
        -- intros [-> A] [|k] name f E I; [reflexivity|]. exact (A k name f E I).
        -- intros A. split.
           ++ apply named_in in N. specialize (A 0%nat fn fsty eq_refl N). injection A as A. exact A.
           ++ intros k name f E I. exact (A (S k) name f E I).
      * split.
        -- intros [_ A] [|k] name f E I; [|exact (A k name f E I)].
           injection E as <- _. apply named_in in I. congruence.
        -- intros A. split; [now apply equal_always_ok|]. intros k name f E I. exact (A (S k) name f E I).
  - destruct names; [|discriminate C]. split; [intros _ ? ? ? _ []|reflexivity].
Qed.
Definition classes_ok (c : config) (p : preset) : bool :=
  forallb (fun e => forallb (fun f => if String.eqb (fst e) (fst f) then class_ok (compared (fst e)) (snd f) (snd e) else true)
    (phase0_containers p)) (all_classes c).
Lemma equal_exact c p name t s a b : In (name, t) (all_classes c) -> In (name, s) (phase0_containers p) ->
  wt t a -> wt t b -> (op_eq t a b = true <-> agree (compared name) s a b).
Proof.
  intros Hc Hp. apply class_exact. assert (F : classes_ok c p = true) by reflexivity.
  unfold classes_ok in F. rewrite forallb_forall in F. specialize (F _ Hc). rewrite forallb_forall in F. specialize (F _ Hp).
  cbn [fst snd] in F. rewrite String.eqb_refl in F. exact F.
Qed.
