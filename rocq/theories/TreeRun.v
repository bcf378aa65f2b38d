(** Running a protocol with one fixed schedule. *)
From Verif Require Export ProcProofs.
Local Open Scope nat_scope.

Section Run.
Context {M R S : Type}.
Local Notation sys := (sys M R S).

Definition guest_step (s : sys) : option sys :=
  match s_guest s with
  | Send i m k => match s_hosts s !! i with Some (p, d, u) => Some (Sys k (<[i := (p, d ++ [m], u)]> (s_hosts s))) | None => None end
  | Recv i k => match s_hosts s !! i with Some (p, d, m :: u) => Some (Sys (k m) (<[i := (p, d, u)]> (s_hosts s))) | _ => None end
  | _ => None
  end.
Definition host_step (s : sys) (j : nat) : option sys :=
  match s_hosts s !! j with
  | Some (Send tt m k, d, u) => Some (Sys (s_guest s) (<[j := (k, d, u ++ [m])]> (s_hosts s)))
  | Some (Recv tt k, m :: d, u) => Some (Sys (s_guest s) (<[j := (k m, d, u)]> (s_hosts s)))
  | _ => None
  end.
Fixpoint first_step (s : sys) (l : list nat) : option sys :=
  match l with [] => None | j :: l' => match host_step s j with Some t => Some t | None => first_step s l' end end.
Definition some_step (s : sys) : option sys :=
  match guest_step s with Some t => Some t | None => first_step s (seq 0 (length (s_hosts s))) end.
Fixpoint run (fuel : nat) (s : sys) : nat * sys :=
  match fuel with
  | 0 => (0, s)
  | Datatypes.S f => match some_step s with Some t => let r := run f t in (Datatypes.S r.1, r.2) | None => (0, s) end
  end.
Definition is_stuck (s : sys) : bool := match some_step s with None => true | Some _ => false end.

Lemma guest_step_ok s t : guest_step s = Some t -> step s t.
Proof.
  destruct s as [g hs]. unfold guest_step. cbn [s_guest s_hosts]. destruct g as [r|e|i m k|i k]; try discriminate.
  - destruct (hs !! i) as [[[p d] u]|] eqn:L; [|discriminate]. intros [= <-]. now apply step_gsend.
  - destruct (hs !! i) as [[[p d] [|m u]]|] eqn:L; try discriminate. intros [= <-]. now apply (step_grecv i k hs p d m u).
Qed.
Lemma host_step_ok s j t : host_step s j = Some t -> step s t.
Proof.
  destruct s as [g hs]. unfold host_step. cbn [s_guest s_hosts]. destruct (hs !! j) as [[[p d] u]|] eqn:L; [|discriminate].
  destruct p as [r|e|[] m k|[] k]; try discriminate.
  - intros [= <-]. now apply (step_hsend g j m k hs d u).
  - destruct d as [|m d]; [discriminate|]. intros [= <-]. now apply (step_hrecv g j k hs m d u).
Qed.
Lemma some_step_ok s t : some_step s = Some t -> step s t.
Proof.
  unfold some_step. destruct (guest_step s) as [t'|] eqn:E; [intros [= <-]; now apply guest_step_ok|].
  generalize (seq 0 (length (s_hosts s))). induction l as [|j l IH]; cbn; [discriminate|].
  destruct (host_step s j) as [t'|] eqn:E2; [|exact IH]. intros [= <-]. eapply host_step_ok; eauto.
Qed.
Lemma run_ok fuel s : nsteps step (run fuel s).1 s (run fuel s).2.
Proof.
  revert s. induction fuel as [|f IH]; intros s; cbn; [constructor|]. destruct (some_step s) as [t|] eqn:E; cbn; [|constructor].
  econstructor; [eapply some_step_ok; eauto|apply IH].
Qed.
Lemma stuck_nf s : is_stuck s = true -> nf step s.
Proof.
  unfold is_stuck, some_step. intros H [t Ht].
  destruct (guest_step s) eqn:EG; [discriminate|]. destruct (first_step s _) eqn:EF; [discriminate|].
  assert (X : forall j, j < length (s_hosts s) -> host_step s j = None).
  { intros j Hj. assert (Hin : In j (seq 0 (length (s_hosts s)))) by (apply in_seq; lia). revert EF Hin. generalize (seq 0 (length (s_hosts s))).
    induction l as [|a l IH]; cbn; [easy|]. destruct (host_step s a) eqn:E; [discriminate|]. intros F [->|I]; [exact E|]. now apply IH. }
  inversion Ht as [i m k hs p d u L|i k hs p d m u L|g j m k hs d u L|g j k hs m d u L]; subst; cbn [s_guest s_hosts guest_step] in *.
  - unfold guest_step in EG. cbn in EG. now rewrite L in EG.
  - unfold guest_step in EG. cbn in EG. now rewrite L in EG.
  - specialize (X j (lookup_lt_Some _ _ _ L)). unfold host_step in X. cbn in X. now rewrite L in X.
  - specialize (X j (lookup_lt_Some _ _ _ L)). unfold host_step in X. cbn in X. now rewrite L in X.
Qed.

(** Every schedule from [s] ends in [t], after the same number of steps. *)
Definition always (s t : sys) : Prop := exists N, forall m s', nsteps step m s s' -> m <= N /\ nsteps step (N - m) s' t.
Lemma always_run fuel s : is_stuck (run fuel s).2 = true -> always s (run fuel s).2.
Proof. intros H. exists (run fuel s).1. apply outcome; [apply run_ok|now apply stuck_nf]. Qed.
Lemma always_unique s t m t' : always s t -> nf step t' -> nsteps step m s t' -> t' = t.
Proof. intros (N & A) NF H. destruct (A m t' H) as [_ H']. inversion H' as [|? ? ? ? H1]; [reflexivity|]. destruct NF. eexists. exact H1. Qed.
End Run.
