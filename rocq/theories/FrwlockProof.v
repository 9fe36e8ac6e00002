From Verif Require Import FrwlockModel.
From Coq Require Import ZifyBool.
Local Open Scope Z_scope.
Notation len l := (Z.of_nat (length l)).

Definition I (s : sys) : Prop :=
  NoDup (everybody s)
  /\ ((cnt (lk s) = -1 /\ rin s = [] /\ rwk s = [] /\ length (win s ++ wwk s) = 1%nat)
      \/ (0 <= cnt (lk s) /\ win s = [] /\ wwk s = [] /\ cnt (lk s) = len (rin s ++ rwk s)))
  /\ (wr_wait (lk s) <> [] -> cnt (lk s) <> 0)
  /\ (rd_wait (lk s) <> [] -> cnt (lk s) < 0 \/ wr_wait (lk s) <> []).

Ltac bd := repeat match goal with
  | H : (_ && _)%bool = true |- _ => apply andb_true_iff in H as [? ?]
  | H : (_ || _)%bool = false |- _ => apply orb_false_iff in H as [? ?]
  | H : negb _ = true |- _ => apply negb_true_iff in H
  | H : negb _ = false |- _ => apply negb_false_iff in H
  | H : bool_decide _ = true |- _ => apply bool_decide_eq_true in H
  | H : bool_decide _ = false |- _ => apply bool_decide_eq_false in H
  end.

Lemma wake_readers_eq ws c : wake_readers ws c = (c + len ws, ws).
Proof. revert c. induction ws as [|w ws IH]; intros c; cbn; [f_equal; lia|]. rewrite IH. f_equal. lia. Qed.

(** permutation bookkeeping *)
Lemma perm_step (l l' : list positive) : l ≡ₚ l' -> NoDup l -> NoDup l'.
Proof. intros H. by rewrite H. Qed.
Ltac pm := solve_Permutation || idtac.

Lemma I_init : I sys_init.
Proof. unfold I. cbn. split_and!; try done; [constructor|by right]. Qed.

Lemma sub_nodup (l l' : list positive) x : l ≡ₚ x :: l' -> NoDup l -> NoDup l'.
Proof. intros H Hn. rewrite H in Hn. by apply NoDup_cons in Hn as [_ ?]. Qed.

Lemma I_step s e s' o : I s -> step s e = Ok s' o -> I s'.
Proof.
  destruct s as [[rw ww c] ri wi rk wk]. intros (Hn & Hc & Hw & Hr). unfold everybody in Hn. cbn in *.
  destruct e as [f|f|f|f|f]; cbn.
  - unfold everybody. cbn. destruct (decide _) as [|Hf]; [done|]. unfold rlock_cs. cbn.
    destruct (_ || _) eqn:E; intros [= <- <-]; unfold I, everybody; cbn.
    + split_and!; try done.
      * eapply perm_step; [|constructor; [exact Hf|exact Hn]]. solve_Permutation.
      * intros _. apply orb_true_iff in E as [E|E]; bd; [by left|by right].
    + bd. subst ww. split_and!; try done.
      * by constructor.
      * right. destruct Hc as [(? & _)|(? & -> & -> & Hc)]; [lia|]. split_and!; try done; [lia|cbn; lia].
      * intros Hx. specialize (Hr Hx). destruct Hr; [lia|done].
  - unfold everybody. cbn. destruct (decide _) as [|Hf]; [done|]. unfold wlock_cs. cbn.
    destruct (bool_decide _) eqn:E; intros [= <- <-]; unfold I, everybody; cbn; bd.
    + split_and!; try done.
      * eapply perm_step; [|constructor; [exact Hf|exact Hn]]. solve_Permutation.
      * intros Hx. by right.
    + assert (c = 0) as -> by (destruct (decide (c = 0)); [done|by exfalso; apply E]). destruct Hc as [(? & _)|(_ & -> & -> & Hc)]; [lia|].
      assert (ri = [] /\ rk = []) as [-> ->]. { rewrite app_length in Hc. destruct ri, rk; cbn in Hc; try done; lia. }
      cbn in *. split_and!; try done.
      * by constructor.
      * by left.
      * intros _. by left.
  - destruct (decide _) as [Hf|]; [|done]. unfold runlock_cs. cbn.
    destruct (bool_decide (c > 0)) eqn:E1; [|done]. bd. destruct Hc as [(? & _)|(_ & -> & -> & Hc)]; [lia|].
    pose proof (remove1_perm _ _ Hf) as Hp. pose proof (remove1_length _ _ Hf) as Hl.
    assert (Hn': NoDup (remove1 f ri ++ [] ++ rk ++ [] ++ rw ++ ww)).
    { rewrite Hp in Hn. cbn in Hn. by apply NoDup_cons in Hn as [_ ?]. }
    rewrite app_length in Hc.
    destruct (bool_decide (c - 1 = 0)) eqn:E2; bd; unfold try_wakeup_writer; cbn.
    + assert (remove1 f ri = [] /\ rk = []) as [Er ->].
      { destruct (remove1 f ri), rk; cbn in *; try done; lia. }
      destruct ww as [|w ww]; intros [= <- <-]; unfold I, everybody; cbn; rewrite Er in *; cbn in *.
      * split_and!; try done; [right; split_and!; try done; lia|].
        intros Hx. destruct (Hr Hx); [lia|done].
      * split_and!; try done.
        -- eapply perm_step; [|exact Hn']. solve_Permutation.
        -- by left.
        -- intros _. by left.
    + intros [= <- <-]; unfold I, everybody; cbn. split_and!; try done.
      * right. split_and!; try done; [lia|]. rewrite app_length. lia.
      * intros Hx. destruct (Hr Hx); [lia|by right].
  - destruct (decide _) as [Hf|]; [|done]. unfold wunlock_cs. cbn.
    destruct (bool_decide (c = -1)) eqn:E1; [|done]. bd. subst c. destruct Hc as [(_ & -> & -> & Hc)|(? & _)]; [|lia].
    pose proof (remove1_perm _ _ Hf) as Hp. pose proof (remove1_length _ _ Hf) as Hl.
    rewrite app_length in Hc. assert (remove1 f wi = [] /\ wk = []) as [Er ->].
    { destruct (remove1 f wi), wk; cbn in *; try done; lia. }
    assert (Hn': NoDup (rw ++ ww)).
    { rewrite Hp, Er in Hn. cbn in Hn. by apply NoDup_cons in Hn as [_ ?]. }
    destruct rw as [|r rw].
    + unfold try_wakeup_writer. cbn. destruct ww as [|w ww]; intros [= <- <-]; unfold I, everybody; cbn; rewrite Er; cbn.
      * split_and!; try done. by right.
      * split_and!; try done. by left.
    + rewrite wake_readers_eq. intros [= <- <-]; unfold I, everybody; cbn -[Z.of_nat]; rewrite Er, app_nil_r; cbn -[Z.of_nat].
      split_and!; try done.
      * right. split_and!; try done; lia.
      * lia.
  - destruct (decide _) as [Hf|Hf].
    + intros [= <- <-]. pose proof (remove1_perm _ _ Hf) as Hp. pose proof (remove1_length _ _ Hf) as Hl.
      unfold I, everybody; cbn. split_and!; try done.
      * eapply perm_step; [|exact Hn]. rewrite Hp at 1. solve_Permutation.
      * destruct Hc as [(_ & _ & -> & _)|(H1 & H2 & H3 & H4)]; [set_solver|]. right. split_and!; try done.
        cbn. rewrite app_length in *. lia.
    + destruct (decide _) as [Hf'|]; [|done]. intros [= <- <-]. pose proof (remove1_perm _ _ Hf') as Hp. pose proof (remove1_length _ _ Hf') as Hl.
      unfold I, everybody; cbn. split_and!; try done.
      * eapply perm_step; [|exact Hn]. rewrite Hp at 1. solve_Permutation.
      * destruct Hc as [(H1 & H2 & H3 & H4)|(_ & _ & -> & _)]; [|set_solver]. left. split_and!; try done.
        cbn. rewrite app_length in *. lia.
Qed.
Lemma I_safe s e : I s -> step s e <> Crash.
Proof.
  destruct s as [[rw ww c] ri wi rk wk]. intros (Hn & Hc & Hw & Hr). cbn in *. destruct e as [f|f|f|f|f]; cbn.
  - destruct (decide _); [done|]. by destruct (rlock_cs _ _).
  - destruct (decide _); [done|]. by destruct (wlock_cs _ _).
  - destruct (decide _) as [Hf|]; [|done]. unfold runlock_cs. cbn. rewrite bool_decide_eq_true_2.
    + destruct (bool_decide _); [|done]. by destruct (try_wakeup_writer _).
    + pose proof (remove1_length _ _ Hf). destruct Hc as [(_ & -> & _)|(_ & _ & _ & Hc)]; [set_solver|]. rewrite app_length in Hc. lia.
  - destruct (decide _) as [Hf|]; [|done]. unfold wunlock_cs. cbn. rewrite bool_decide_eq_true_2.
    + destruct rw; [by destruct (try_wakeup_writer _)|]. by destruct (wake_readers _ _).
    + destruct Hc as [(-> & _)|(_ & -> & _)]; [done|set_solver].
  - destruct (decide _); [done|]. by destruct (decide _).
Qed.
