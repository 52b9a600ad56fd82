(** The sorting of the examples satisfies the specification of numpy.argsort. *)
From Coq Require Import String ZArith List Bool Lia Permutation Sorted.
From Verif Require Import Num NumFacts Py PyFacts ModelPulse ModelControls ModelLinalg ModelState ModelSearch
  SpecRun SpecSearch ProofNM ExampleRun.
Import ListNotations.
Open Scope list_scope.

Section Sort.
  Context {N : Num} (NO : NumOrder N).

  Lemma ins_perm p (l : list (num * nat)) : Permutation (ins p l) (p :: l).
  Proof.
    induction l as [|q l IH]; cbn; [reflexivity|]. destruct (fst p <=? fst q)%num; [reflexivity|].
    rewrite IH. apply perm_swap.
  Qed.
  Lemma sort_perm (l : list (num * nat)) : Permutation (sort_pairs l) l.
  Proof. induction l as [|p l IH]; cbn; [reflexivity|]. rewrite ins_perm. now constructor. Qed.
  Notation le := (fun p q : num * nat => (fst p <=? fst q)%num = true).
  Lemma ins_sorted p l : (forall q, In q (p :: l) -> nisnan (fst q) = false) -> StronglySorted le l -> StronglySorted le (ins p l).
  Proof.
    intros NF H. induction H as [|q l H IH F]; cbn.
    - constructor; [constructor|constructor].
    - destruct (fst p <=? fst q)%num eqn:E.
      + constructor; [now constructor|]. constructor; [assumption|]. rewrite Forall_forall in *. intros r R.
        eapply nle_trans; [exact NO|exact E|]. now apply F.
      + constructor.
        * apply IH. intros r [<-|R]; apply NF; [now left|right; now right].
        * rewrite Forall_forall in *. intros r R. apply (Permutation_in _ (ins_perm p l)) in R as [<-|R]; [|now apply F].
          destruct (nle_total _ NO (fst p) (fst q)) as [D|D]; [apply NF; now left|apply NF; right; now left|congruence|assumption].
  Qed.
  Lemma sort_sorted l : (forall q, In q l -> nisnan (fst q) = false) -> StronglySorted le (sort_pairs l).
  Proof.
    induction l as [|p l IH]; cbn; intros NF; [constructor|]. apply ins_sorted.
    - intros q [<-|Q]; apply NF; [now left|right]. now apply (Permutation_in _ (sort_perm l)).
    - apply IH. intros q Q. apply NF. now right.
  Qed.
  Lemma combine_seq_nth (ys : list num) a p : In p (combine ys (seq a (length ys))) -> nth (snd p - a) ys (of_Z 0) = fst p /\ (a <= snd p)%nat.
  Proof.
    revert a. induction ys as [|y ys IH]; intros a; cbn; [easy|]. intros [<-|I]; cbn.
    - now rewrite Nat.sub_diag.
    - apply IH in I as [I1 I2]. replace (snd p - a) with (S (snd p - S a)) by lia. split; [assumption|lia].
  Qed.

  Lemma combine_seq_snd (ys : list num) a : map snd (combine ys (seq a (length ys))) = seq a (length ys).
  Proof. revert a. induction ys as [|y ys IH]; intros a; cbn; [reflexivity|]. f_equal. apply IH. Qed.
  Lemma combine_seq_fst (ys : list num) a : map fst (combine ys (seq a (length ys))) = ys.
  Proof. revert a. induction ys as [|y ys IH]; intros a; cbn; [reflexivity|]. f_equal. apply IH. Qed.

  Lemma argsort_sorts (W : world) : w_argsort W = argsort -> sorts W.
  Proof.
    intros E ys. rewrite E. unfold argsort. set (l := combine ys (seq 0 (length ys))).
    assert (map snd l = seq 0 (length ys)) as M by (unfold l; apply combine_seq_snd).
    assert (map fst l = ys) as M' by (unfold l; apply combine_seq_fst).
    split.
    - rewrite <- M. now rewrite (sort_perm l).
    - intros NF. rewrite map_map.
      assert (forall q, In q l -> nisnan (fst q) = false) as NL by (intros q Q; apply NF; rewrite <- M'; now apply in_map).
      pose proof (sort_sorted l NL) as S.
      assert (map (fun p => nth (snd p) ys (of_Z 0)) (sort_pairs l) = map fst (sort_pairs l)) as ->.
      { apply map_ext_in. intros p P. apply (Permutation_in _ (sort_perm l)) in P. apply combine_seq_nth in P as [P _].
        now rewrite Nat.sub_0_r in P. }
      clear - S. unfold increasing. induction S as [|p m S IH F]; cbn; constructor; [assumption|].
      rewrite Forall_forall in *. intros y Y. apply in_map_iff in Y as (q & <- & Q). now apply F.
  Qed.
End Sort.
