(** ProofMain: proofs for PropMain *)
From Coq Require Import Permutation Lia.
From Verif Require Import Base Utf8 ModelBencode ModelMessages ModelTorrent ModelWriter ModelTracker ModelStream
  ModelPeer ModelActors ModelCache ModelMain ProofBase SpecTorrent ProofTorrent SpecWriter ProofWriter SpecPieces
  SpecPeer ProofPeer SpecSystem ProofSystem SpecCache ProofCache2 SpecMain.

(** ** Lists *)

Lemma nth_update : forall A k (f : A -> A) l j,
  nth_error (update_nth k f l) j = if (j =? k)%nat then option_map f (nth_error l j) else nth_error l j.
Proof.
  induction k as [|k IH]; intros f [|x l] [|j]; cbn [update_nth nth_error Nat.eqb option_map]; auto.
  - destruct (j =? k)%nat; auto.
Qed.

Lemma update_length : forall A k (f : A -> A) l, List.length (update_nth k f l) = List.length l.
Proof. induction k as [|k IH]; intros f [|x l]; cbn [update_nth List.length]; auto. Qed.

Lemma in_update : forall A k (f : A -> A) l x, In x (update_nth k f l) ->
  In x l \/ exists y, nth_error l k = Some y /\ x = f y.
Proof.
  induction k as [|k IH]; intros f [|y l] x H; cbn [update_nth In] in H; auto.
  - destruct H as [<-|H]; [right; exists y; auto|left; right; auto].
  - destruct H as [<-|H]; [left; left; auto|]. apply IH in H as [H|(z & E & ->)]; [left; right; auto|right; exists z; auto].
Qed.

Lemma in_remove : forall A k (l : list A) x, In x (remove_nth k l) -> In x l.
Proof.
  induction k as [|k IH]; intros [|y l] x H; cbn [remove_nth In] in *; auto.
  destruct H as [H|H]; auto.
Qed.

Lemma remove_perm : forall A k (l : list A) x, nth_error l k = Some x -> Permutation l (x :: remove_nth k l).
Proof.
  induction k as [|k IH]; intros [|y l] x H; cbn [nth_error remove_nth] in *; try discriminate.
  - injection H as ->. auto.
  - apply IH in H. etransitivity; [apply perm_skip, H|]. apply perm_swap.
Qed.

Lemma update_perm : forall A k (f : A -> A) (l : list A) x, nth_error l k = Some x ->
  Permutation (update_nth k f l) (f x :: remove_nth k l).
Proof.
  induction k as [|k IH]; intros f [|y l] x H; cbn [nth_error remove_nth update_nth] in *; try discriminate.
  - injection H as ->. auto.
  - apply (IH f) in H. etransitivity; [apply perm_skip, H|]. apply perm_swap.
Qed.

Lemma nth_forward : forall full r l b k,
  nth_error (forward_all full r b l) k = option_map (forward full r (b + k)) (nth_error l k).
Proof.
  intros full r l. induction l as [|x l IH]; intros b [|k]; cbn [forward_all nth_error option_map]; auto.
  - rewrite Nat.add_0_r. auto.
  - rewrite IH. f_equal. f_equal. lia.
Qed.

Lemma in_nth : forall A (l : list A) x, In x l -> exists k, nth_error l k = Some x.
Proof. intros. apply In_nth_error. auto. Qed.

(** ** Runs *)

Lemma run_app : forall sha1 p cwd ops ops' s,
  pr_run sha1 p cwd s (ops ++ ops') = pr_run sha1 p cwd (pr_run sha1 p cwd s ops) ops'.
Proof. intros. unfold pr_run. apply fold_left_app. Qed.

Lemma lookups_app : forall sha1 p cwd ops ops' s,
  lookups sha1 p cwd s (ops ++ ops') = lookups sha1 p cwd s ops ++ lookups sha1 p cwd (pr_run sha1 p cwd s ops) ops'.
Proof.
  intros sha1 p cwd ops. induction ops as [|o ops IH]; intros ops' s; [auto|].
  cbn [app lookups pr_run fold_left]. rewrite IH, <- app_assoc. auto.
Qed.

Lemma accepted_app : forall p a b, accepted p (a ++ b) = accepted p a ++ accepted p b.
Proof. intros. unfold accepted. apply flat_map_app. Qed.

(** Induction over the length of an execution. *)
Lemma started_ind : forall sha1 p cwd d (P : list pop -> process -> Prop),
  P [] (process_init d) ->
  (forall ops s o, started sha1 p cwd d ops s -> pop_ok o -> P ops s -> P (ops ++ [o]) (pr_step sha1 p cwd s o)) ->
  forall ops s, started sha1 p cwd d ops s -> P ops s.
Proof.
  intros sha1 p cwd d P H0 HS ops. induction ops as [|o ops IH] using rev_ind; intros s [F E].
  - subst s. auto.
  - rewrite run_app in E. cbn [pr_run fold_left] in E. apply Forall_app in F as [F1 F2]. inversion F2; subst.
    apply HS; [split; auto|auto|]. apply IH. split; auto.
Qed.

(** ** One step: what it does to the trackers and to the torrents *)

Lemma torrent_trackers : forall sha1 p cwd s t o, pr_trackers (torrent_step sha1 p cwd s t o) = pr_trackers s.
Proof. intros. unfold torrent_step. destruct (nth_error (pr_torrents s) t); auto. Qed.
Lemma torrent_interface : forall sha1 p cwd s t o, pr_interface (torrent_step sha1 p cwd s t o) = pr_interface s.
Proof. intros. unfold torrent_step. destruct (nth_error (pr_torrents s) t); auto. Qed.
Lemma torrent_length : forall sha1 p cwd s t o,
  List.length (pr_torrents (torrent_step sha1 p cwd s t o)) = List.length (pr_torrents s).
Proof. intros. unfold torrent_step. destruct (nth_error (pr_torrents s) t); [cbn; apply update_length|auto]. Qed.
Lemma torrent_nth : forall sha1 p cwd s t o u,
  nth_error (pr_torrents (torrent_step sha1 p cwd s t o)) u
  = if (u =? t)%nat then option_map (fun x => sys_step sha1 p cwd (set_disk (pr_disk s) x) o) (nth_error (pr_torrents s) u)
    else nth_error (pr_torrents s) u.
Proof.
  intros. unfold torrent_step. destruct (nth_error (pr_torrents s) t) as [x|] eqn:E.
  - cbn [pr_torrents]. rewrite nth_update. destruct (u =? t)%nat eqn:U; [|auto]. apply Nat.eqb_eq in U as ->. rewrite E. auto.
  - destruct (u =? t)%nat eqn:U; [|auto]. apply Nat.eqb_eq in U as ->. rewrite E. auto.
Qed.

(** A request that is accepted, and one that is not. *)
Lemma add_cases : forall p full raw s,
  (exists h, accepts p raw = Some h /\ fst (add_magnet p full raw s) = Answer 200 (s2b "Test") /\
     snd (add_magnet p full raw s) =
     {| pr_torrents := pr_torrents s ++ [sys_init h (pr_disk s)];
        pr_interface := if full then pr_interface s
                        else pr_interface s ++ [{| rg_hash := h; rg_torrent := List.length (pr_torrents s) |}];
        pr_trackers := pr_trackers s; pr_disk := pr_disk s |}) \/
  (accepts p raw = None /\ (forall b, fst (add_magnet p full raw s) <> Answer 200 b) /\ snd (add_magnet p full raw s) = s).
Proof.
  intros p full raw s. unfold accepts, add_magnet.
  destruct (262144 <? lenN raw)%N eqn:L.
  - right. replace (lenN raw <=? 262144)%N with false by (symmetry; apply N.leb_gt; apply N.ltb_lt; auto). cbn. repeat split; auto; discriminate.
  - replace (lenN raw <=? 262144)%N with true by (symmetry; apply N.leb_le; apply N.ltb_ge; auto). cbn [andb].
    destruct (utf8_valid raw); cbn [negb]; [|right; repeat split; auto; discriminate].
    destruct (parse_magnet p raw) as [[h|]| |]; cbn [fst snd]; try (right; repeat split; auto; discriminate).
    left. exists h. auto.
Qed.

Definition new_mail (s : process) (o : pop) (t : nat) : list bytes :=
  match o with
  | PReport k j c =>
    match nth_error (pr_trackers s) k with
    | Some x => match nth_error (tk_jobs x) j with
                | Some (Reporting r (e :: _)) =>
                  if (rg_torrent r =? t)%nat && is_reachable c (endpoint e) then [endpoint e] else []
                | _ => []
                end
    | None => []
    end
  | _ => []
  end.

(** What one step does to one torrent. *)
Lemma torrent_cases : forall sha1 p cwd s o u x', pop_ok o ->
  nth_error (pr_torrents (pr_step sha1 p cwd s o)) u = Some x' ->
  (nth_error (pr_torrents s) u = Some x' /\ new_mail s o u = []) \/
  (exists x D o', nth_error (pr_torrents s) u = Some x /\ op_ok o' /\ x' = sys_step sha1 p cwd (set_disk D x) o' /\
     peer_reports [o'] = new_mail s o u /\ (o' = OWrite -> o = PWrite u)) \/
  (exists raw full h, o = PAdd raw full /\ accepts p raw = Some h /\ u = List.length (pr_torrents s) /\
     x' = sys_init h (pr_disk s)).
Proof.
  intros sha1 p cwd s o u x' OK H.
  assert (T : forall s0 t o', op_ok o' -> pr_torrents s0 = pr_torrents s ->
    nth_error (pr_torrents (torrent_step sha1 p cwd s0 t o')) u = Some x' ->
    (u <> t /\ nth_error (pr_torrents s) u = Some x') \/
    (u = t /\ exists x, nth_error (pr_torrents s) u = Some x /\ x' = sys_step sha1 p cwd (set_disk (pr_disk s0) x) o')).
  { intros s0 t o' OK' E H'. rewrite torrent_nth, E in H'. destruct (u =? t)%nat eqn:U.
    - apply Nat.eqb_eq in U as ->. destruct (nth_error (pr_torrents s) t) as [x|]; [|discriminate]. injection H' as <-. right. eauto.
    - apply Nat.eqb_neq in U. auto. }
  destruct o; cbn [pr_step pop_ok new_mail] in *.
  - destruct (add_cases p full raw s) as [(h & A & _ & E)|(A & _ & E)]; rewrite E in H; [|auto].
    cbn [pr_torrents] in H. destruct (Nat.lt_ge_cases u (List.length (pr_torrents s))) as [L|L].
    + rewrite nth_error_app1 in H by auto. auto.
    + rewrite nth_error_app2 in H by auto. destruct (u - List.length (pr_torrents s))%nat as [|n] eqn:N.
      * right. right. cbn in H. injection H as <-. exists raw, full, h. repeat split; auto. lia.
      * cbn in H. destruct n; discriminate.
  - destruct (pr_interface s); auto.
  - auto.
  - auto.
  - destruct (nth_error (pr_trackers s) k) as [x|]; [|auto].
    destruct (nth_error (tk_jobs x) j) as [[r|r [|e rest]]|]; auto.
    destruct (is_reachable connects (endpoint e)) eqn:RE.
    + apply T in H; [|exact I|auto]. destruct H as [[U H]|[U (y & H & E)]].
      * left. split; [auto|]. rewrite (proj2 (Nat.eqb_neq (rg_torrent r) u)) by congruence. auto.
      * right. left. exists y. eexists _, _. split; [exact H|]. split; [|split; [exact E|]]; [exact I|].
        subst u. rewrite Nat.eqb_refl. split; [auto|discriminate].
    + rewrite andb_false_r. auto.
  - destruct (nth_error (pr_torrents s) t) as [x|] eqn:E; [|auto].
    assert (G : forall s0 found, pr_torrents s0 = pr_torrents s ->
      nth_error (pr_torrents (torrent_step sha1 p cwd s0 t (OHandle k found shuffle))) u = Some x' ->
      (nth_error (pr_torrents s) u = Some x' /\ @nil bytes = []) \/
      (exists x D o', nth_error (pr_torrents s) u = Some x /\ op_ok o' /\ x' = sys_step sha1 p cwd (set_disk D x) o' /\ peer_reports [o'] = [] /\ (o' = OWrite -> PHandle t k accept fuel net pid shuffle = PWrite u)) \/
      (exists raw full h, PHandle t k accept fuel net pid shuffle = PAdd raw full /\ accepts p raw = Some h /\ u = List.length (pr_torrents s) /\ x' = sys_init h (pr_disk s))).
    { intros s0 found E0 H'. apply T in H'; [|exact OK|auto]. destruct H' as [[U H']|[U (y & H' & E')]]; [auto|].
      right. left. exists y. eexists _, _. split; [exact H'|]. split; [|split; [exact E'|]]; [exact OK|]. split; [auto|discriminate]. }
    destruct (nth_error (sy_mail x) k) as [[]|]; try (eapply G; [|exact H]; reflexivity).
    destruct (ta_info (sy_actor x)); try (eapply G; [|exact H]; reflexivity).
    destruct (sy_dead x); try (eapply G; [|exact H]; reflexivity).
    destruct (collect_info accept fuel cwd (pr_disk s) net pid (ta_info_hash (sy_actor x)) ep) as [[found d]| |];
      try (eapply G; [|exact H]; reflexivity). auto.
  - apply T in H; [|exact I|auto]. destruct H as [[U H]|[U (y & H & E)]]; [auto|]. right. left. exists y. eexists _, _.
    split; [exact H|]. split; [|split; [exact E|]]; [exact I|]; split; [auto|try discriminate]; intros _; congruence.
  - apply T in H; [|exact I|auto]. destruct H as [[U H]|[U (y & H & E)]]; [auto|]. right. left. exists y. eexists _, _.
    split; [exact H|]. split; [|split; [exact E|]]; [exact I|]; split; [auto|try discriminate]; intros _; congruence.
  - apply T in H; [|exact I|auto]. destruct H as [[U H]|[U (y & H & E)]]; [auto|]. right. left. exists y. eexists _, _.
    split; [exact H|]. split; [|split; [exact E|]]; [exact I|]; split; [auto|try discriminate]; intros _; congruence.
Qed.

(** Torrents are only ever added, one per accepted request. *)
Lemma torrents_length : forall sha1 p cwd s o,
  List.length (pr_torrents (pr_step sha1 p cwd s o)) = (List.length (pr_torrents s) + List.length (accepted p [o]))%nat.
Proof.
  intros sha1 p cwd s o. destruct o; cbn [pr_step accepted flat_map app]; rewrite ?torrent_length; try (cbn [List.length]; lia).
  - destruct (add_cases p full raw s) as [(h & A & _ & E)|(A & _ & E)]; rewrite E, A; cbn [pr_torrents List.length app]; [|lia].
    rewrite app_length. cbn. lia.
  - destruct (pr_interface s); cbn; lia.
  - cbn. lia.
  - cbn. lia.
  - cbn [List.length]. destruct (nth_error (pr_trackers s) k) as [x|]; [|lia].
    destruct (nth_error (tk_jobs x) j) as [[r|r [|e rest]]|]; try (cbn; lia).
    destruct (is_reachable connects (endpoint e)); [rewrite torrent_length|]; cbn; lia.
  - cbn [List.length]. destruct (nth_error (pr_torrents s) t) as [x|]; [|lia].
    destruct (nth_error (sy_mail x) k) as [[]|]; rewrite ?torrent_length; try lia.
    destruct (ta_info (sy_actor x)); rewrite ?torrent_length; try lia.
    destruct (sy_dead x); rewrite ?torrent_length; try lia.
    destruct (collect_info accept fuel cwd (pr_disk s) net pid (ta_info_hash (sy_actor x)) ep) as [[found d]| |];
      rewrite ?torrent_length; cbn; lia.
Qed.

Lemma accepted_length : forall sha1 p cwd d ops s, started sha1 p cwd d ops s ->
  List.length (pr_torrents s) = List.length (accepted p ops).
Proof.
  intros sha1 p cwd d. refine (started_ind sha1 p cwd d _ _ _); [auto|].
  intros ops s o _ _ IH. rewrite torrents_length, accepted_app, app_length, IH. auto.
Qed.

Lemma handle_hash : forall p found shuffle a m a' es, handle p found shuffle a m = Ret (a', es) ->
  ta_info_hash a' = ta_info_hash a.
Proof.
  intros p found shuffle a m a' es H. destruct m; cbn [handle] in H.
  - unfold handle_peer_found in H. destruct (ta_info a) as [i|].
    + destruct ((10 <? lenN (ta_peers a ++ [apeer_new ep]))%N && negb (ta_initiated a)).
      * apply obind_ret in H as (q & _ & H). apply obind_ret in H as ([[q' ini] es'] & _ & H). injection H as <- _. auto.
      * injection H as <- _. auto.
    + apply obind_ret in H as ([i|] & _ & H).
      * apply obind_ret in H as (tl & _ & H). apply obind_ret in H as (c & _ & H). injection H as <- _. auto.
      * injection H as <- _. auto.
  - unfold handle_success in H. apply obind_ret in H as (i & _ & H). apply obind_ret in H as (fs & _ & H).
    apply obind_ret in H as (q & _ & H). destruct (pool_pop q). injection H as <- _. auto.
  - unfold handle_failed in H. apply obind_ret in H as (q & _ & H). apply obind_ret in H as (e & _ & H).
    destruct (pool_pop (pool_insert q idx)) as [[n|] q'].
    + apply obind_ret in H as (i & _ & H). injection H as <- _. auto.
    + injection H as <- _. auto.
Qed.

Lemma step_hash : forall sha1 p cwd s o, ta_info_hash (sy_actor (sys_step sha1 p cwd s o)) = ta_info_hash (sy_actor s).
Proof.
  intros sha1 p cwd s o. destruct (step_trace sha1 p cwd s o) as [(_ & ->)|(k & found & shuffle & m & a & es & -> & D & Hm & EH & ET & EA & _)]; [auto|].
  rewrite EA. eapply handle_hash; eauto.
Qed.

Lemma torrent_hash : forall sha1 p cwd d ops s, started sha1 p cwd d ops s ->
  forall t x, nth_error (pr_torrents s) t = Some x -> nth_error (accepted p ops) t = Some (ta_info_hash (sy_actor x)).
Proof.
  intros sha1 p cwd d. refine (started_ind sha1 p cwd d _ _ _); [intros [|t] x H; discriminate|].
  intros ops s o R OK IH t x H. rewrite accepted_app.
  apply torrent_cases in H; [|auto]. destruct H as [[H _]|[(y & D & o' & H & OK' & E & _)|(raw & full & h & -> & A & -> & E)]].
  - apply IH in H. rewrite nth_error_app1; [auto|]. apply nth_error_Some. congruence.
  - apply IH in H. rewrite nth_error_app1 by (apply nth_error_Some; congruence). subst x. rewrite step_hash. auto.
  - subst x. rewrite (accepted_length _ _ _ _ _ _ R). rewrite nth_error_app2 by lia. rewrite Nat.sub_diag. cbn. rewrite A. auto.
Qed.

(** ** Trackers *)

Lemma quiet_step : forall sha1 p cwd s o,
  match o with
  | PHandle _ _ _ _ _ _ _ | PStart _ | PFinish _ _ _ _ _ | PWrite _ =>
    pr_trackers (pr_step sha1 p cwd s o) = pr_trackers s /\ pr_interface (pr_step sha1 p cwd s o) = pr_interface s
  | _ => True
  end.
Proof.
  intros sha1 p cwd s o. destruct o; cbn [pr_step]; rewrite ?torrent_trackers, ?torrent_interface; auto.
  destruct (nth_error (pr_torrents s) t) as [x|]; [|auto].
  destruct (nth_error (sy_mail x) k) as [[]|]; rewrite ?torrent_trackers, ?torrent_interface; auto.
  destruct (ta_info (sy_actor x)); rewrite ?torrent_trackers, ?torrent_interface; auto.
  destruct (sy_dead x); rewrite ?torrent_trackers, ?torrent_interface; auto.
  destruct (collect_info accept fuel cwd (pr_disk s) net pid (ta_info_hash (sy_actor x)) ep) as [[found d]| |];
    rewrite ?torrent_trackers, ?torrent_interface; auto.
Qed.

(** The change a step makes to tracker number [k], which is [x] before it. *)
Definition tracker_after (s : process) (o : pop) (k : nat) (x : tracker_actor) : tracker_actor :=
  match o with
  | PInterface full => match pr_interface s with [] => x | r :: _ => forward full r k x end
  | PTake k' =>
    if (k =? k')%nat then
      match tk_mail x with
      | [] => x
      | r :: rest => {| tk_url := tk_url x; tk_alive := tk_alive x; tk_mail := rest; tk_jobs := tk_jobs x ++ [Asking r] |}
      end
    else x
  | PLookup k' j e =>
    if (k =? k')%nat then
      match nth_error (tk_jobs x) j with
      | Some (Asking r) =>
        match lookup e (tk_url x) (rg_hash r) with
        | Ret (Ok peers) => set_jobs x (update_nth j (fun _ => Reporting r peers) (tk_jobs x))
        | Ret (Err _) => set_jobs x (remove_nth j (tk_jobs x))
        | Panic => tracker_die x
        | OutOfFuel => x
        end
      | _ => x
      end
    else x
  | PReport k' j c =>
    if (k =? k')%nat then
      match nth_error (tk_jobs x) j with
      | Some (Reporting r []) => set_jobs x (remove_nth j (tk_jobs x))
      | Some (Reporting r (e :: rest)) => set_jobs x (update_nth j (fun _ => Reporting r rest) (tk_jobs x))
      | _ => x
      end
    else x
  | _ => x
  end.

Lemma tracker_nth : forall sha1 p cwd s o k,
  nth_error (pr_trackers (pr_step sha1 p cwd s o)) k = option_map (tracker_after s o k) (nth_error (pr_trackers s) k).
Proof.
  intros sha1 p cwd s o k. pose proof (quiet_step sha1 p cwd s o) as Q.
  assert (Z : forall (o : option tracker_actor), option_map (fun x => x) o = o) by (intros []; auto).
  destruct o; try (rewrite (proj1 Q)); unfold tracker_after; cbn [pr_step]; try (symmetry; apply Z).
  - destruct (add_cases p full raw s) as [(h & A & _ & E)|(A & _ & E)]; rewrite E; symmetry; apply Z.
  - destruct (pr_interface s) as [|r rest]; [symmetry; apply Z|]. cbn [pr_trackers]. rewrite nth_forward. auto.
  - cbn [with_trackers pr_trackers]. rewrite nth_update. destruct (k =? k0)%nat; auto.
  - cbn [with_trackers pr_trackers]. rewrite nth_update. destruct (k =? k0)%nat; auto.
  - destruct (k =? k0)%nat eqn:K.
    + apply Nat.eqb_eq in K as <-. destruct (nth_error (pr_trackers s) k) as [x|] eqn:E; [|rewrite E; auto].
      cbn [option_map].
      destruct (nth_error (tk_jobs x) j) as [[r|r [|e rest]]|] eqn:J; try (rewrite E; auto; fail).
      * cbn [with_trackers pr_trackers]. rewrite nth_update, Nat.eqb_refl, E. auto.
      * assert (G : nth_error (update_nth k (fun x0 => set_jobs x0 (update_nth j (fun _ => Reporting r rest) (tk_jobs x0))) (pr_trackers s)) k
          = Some (set_jobs x (update_nth j (fun _ => Reporting r rest) (tk_jobs x)))) by (rewrite nth_update, Nat.eqb_refl, E; auto).
        destruct (is_reachable connects (endpoint e)); rewrite ?torrent_trackers; cbn [with_trackers pr_trackers]; auto.
    + rewrite Z. destruct (nth_error (pr_trackers s) k0) as [x|] eqn:E; [|auto].
      destruct (nth_error (tk_jobs x) j) as [[r|r [|e rest]]|] eqn:J; auto.
      * cbn [with_trackers pr_trackers]. rewrite nth_update, K. auto.
      * assert (G : nth_error (update_nth k0 (fun x0 => set_jobs x0 (update_nth j (fun _ => Reporting r rest) (tk_jobs x0))) (pr_trackers s)) k
          = nth_error (pr_trackers s) k) by (rewrite nth_update, K; auto).
        destruct (is_reachable connects (endpoint e)); rewrite ?torrent_trackers; cbn [with_trackers pr_trackers]; auto.
Qed.

Lemma interface_step : forall sha1 p cwd s o,
  pr_interface (pr_step sha1 p cwd s o) =
  match o with
  | PAdd raw full => pr_interface s ++
      match accepts p raw with
      | Some h => if full then [] else [{| rg_hash := h; rg_torrent := List.length (pr_torrents s) |}]
      | None => []
      end
  | PInterface _ => tl (pr_interface s)
  | _ => pr_interface s
  end.
Proof.
  intros sha1 p cwd s o. pose proof (quiet_step sha1 p cwd s o) as Q. destruct o; try exact (proj2 Q); cbn [pr_step]; auto.
  - destruct (add_cases p full raw s) as [(h & A & _ & E)|(A & _ & E)]; rewrite E, A; cbn [pr_interface].
    + destruct full; [rewrite app_nil_r|]; auto.
    + rewrite app_nil_r. auto.
  - destruct (pr_interface s) eqn:E; [exact E|auto].
  - destruct (nth_error (pr_trackers s) k) as [x|]; [|auto].
    destruct (nth_error (tk_jobs x) j) as [[r|r [|e rest]]|]; auto.
    destruct (is_reachable connects (endpoint e)); rewrite ?torrent_interface; auto.
Qed.

(** *** Registrations name an accepted request *)

Definition job_reg (j : job) : registration := match j with Asking r => r | Reporting r _ => r end.
Definition known (p : profile) (ops : list pop) (r : registration) : Prop :=
  nth_error (accepted p ops) (rg_torrent r) = Some (rg_hash r).

Lemma known_more : forall p ops o r, known p ops r -> known p (ops ++ [o]) r.
Proof.
  unfold known. intros p ops o r H. rewrite accepted_app, nth_error_app1; [auto|]. apply nth_error_Some. congruence.
Qed.

(** What is true of every tracker at any time. *)
Lemma tracker_facts : forall sha1 p cwd d ops s, started sha1 p cwd d ops s ->
  (forall r, In r (pr_interface s) -> known p ops r) /\
  (forall k x, nth_error (pr_trackers s) k = Some x ->
     nth_error tracker_urls k = Some (tk_url x) /\
     (forall r, In r (tk_mail x) -> known p ops r) /\
     (forall j, In j (tk_jobs x) -> known p ops (job_reg j)) /\
     (tk_alive x = false -> tk_mail x = [] /\ tk_jobs x = [])) /\
  List.length (pr_trackers s) = List.length tracker_urls.
Proof.
  intros sha1 p cwd d. refine (started_ind sha1 p cwd d _ _ _).
  - split; [intros r []|]. split; [|cbn [process_init pr_trackers]; apply map_length].
    intros k x H. cbn [process_init pr_trackers] in H. rewrite nth_error_map in H.
    destruct (nth_error tracker_urls k) as [u|] eqn:E; [|discriminate]. injection H as <-.
    split; [auto|]. repeat split; try (intros ? []); discriminate.
  - intros ops s o R OK (HI & HT & HL). split; [|split].
    + rewrite interface_step. intros r H. destruct o; try (apply known_more; auto; fail).
      * apply in_app_or in H as [H|H]; [apply known_more; auto|].
        destruct (accepts p raw) as [h|] eqn:A; [|contradiction]. destruct full; [contradiction|].
        destruct H as [<-|[]]. unfold known. cbn [rg_torrent rg_hash]. rewrite accepted_app.
        rewrite (accepted_length _ _ _ _ _ _ R), nth_error_app2, Nat.sub_diag by lia. cbn. rewrite A. auto.
      * apply known_more, HI. destruct (pr_interface s); [auto|right; auto].
    + intros k x' H. rewrite tracker_nth in H. destruct (nth_error (pr_trackers s) k) as [x|] eqn:E; [|discriminate].
      injection H as <-. destruct (HT k x E) as (U & M & J & D).
      assert (Base : nth_error tracker_urls k = Some (tk_url x) /\ (forall r, In r (tk_mail x) -> known p (ops ++ [o]) r) /\
        (forall j, In j (tk_jobs x) -> known p (ops ++ [o]) (job_reg j)) /\ (tk_alive x = false -> tk_mail x = [] /\ tk_jobs x = [])).
      { repeat split; auto; try (intros; apply known_more; auto); apply D; auto. }
      destruct Base as (U' & M' & J' & D').
      destruct o; cbn [tracker_after]; auto.
      * destruct (pr_interface s) as [|r rest] eqn:EI; [auto|]. unfold forward.
        destruct (tk_alive x) eqn:AL; cbn [andb]; [|rewrite AL; auto]. destruct (full k); cbn [negb]; [rewrite AL; auto|].
        cbn [tracker_push tk_url tk_mail tk_jobs tk_alive]. split; [auto|]. split; [|split; [auto|congruence]].
        intros r0 [H|H]%in_app_or; [auto|]. destruct H as [<-|[]]. apply known_more, HI. left. auto.
      * destruct (k =? k0)%nat; [|auto]. destruct (tk_mail x) as [|r rest] eqn:EM; [rewrite EM; auto|].
        cbn [tk_url tk_mail tk_jobs tk_alive]. split; [auto|]. split; [intros; apply M'; right; auto|].
        split; [|intros X; apply D in X as [X _]; discriminate].
        intros j [H|H]%in_app_or; [auto|]. destruct H as [<-|[]]. apply M'. left. auto.
      * destruct (k =? k0)%nat; [|auto]. destruct (nth_error (tk_jobs x) j) as [[r|r l]|] eqn:EJ; [|auto|auto].
        destruct (lookup e (tk_url x) (rg_hash r)) as [[l|]| |]; [| | |auto].
        -- cbn [set_jobs tk_url tk_mail tk_jobs tk_alive]. split; [auto|]. split; [auto|]. split.
           ++ intros j0 H. apply in_update in H as [H|(y & Y & ->)]; [auto|]. cbn [job_reg]. apply (J' (Asking r)). eapply nth_error_In; eauto.
           ++ intros X. apply D in X as [X1 X2]. rewrite X2 in EJ. destruct j; discriminate.
        -- cbn [set_jobs tk_url tk_mail tk_jobs tk_alive]. split; [auto|]. split; [auto|]. split.
           ++ intros j0 H. apply in_remove in H. auto.
           ++ intros X. apply D in X as [X1 X2]. rewrite X2 in EJ. destruct j; discriminate.
        -- cbn [tracker_die tk_url tk_mail tk_jobs tk_alive]. repeat split; auto; intros ? [].
      * destruct (k =? k0)%nat; [|auto]. destruct (nth_error (tk_jobs x) j) as [[r|r [|e l]]|] eqn:EJ; [auto| | |auto].
        -- cbn [set_jobs tk_url tk_mail tk_jobs tk_alive]. split; [auto|]. split; [auto|]. split.
           ++ intros j0 H. apply in_remove in H. auto.
           ++ intros X. apply D in X as [X1 X2]. rewrite X2 in EJ. destruct j; discriminate.
        -- cbn [set_jobs tk_url tk_mail tk_jobs tk_alive]. split; [auto|]. split; [auto|]. split.
           ++ intros j0 H. apply in_update in H as [H|(y & Y & ->)]; [auto|]. cbn [job_reg].
              apply (J' (Reporting r (e :: l))). eapply nth_error_In; eauto.
           ++ intros X. apply D in X as [X1 X2]. rewrite X2 in EJ. destruct j; discriminate.
    + assert (forall n, nth_error (pr_trackers (pr_step sha1 p cwd s o)) n <> None <-> nth_error (pr_trackers s) n <> None) as G.
      { intros n. rewrite tracker_nth. destruct (nth_error (pr_trackers s) n); cbn; split; congruence. }
      rewrite <- HL. clear - G.
      assert (L : forall n, (n < List.length (pr_trackers (pr_step sha1 p cwd s o)) <-> n < List.length (pr_trackers s))%nat).
      { intros n. rewrite <- !nth_error_Some. apply G. }
      destruct (Nat.lt_trichotomy (List.length (pr_trackers (pr_step sha1 p cwd s o))) (List.length (pr_trackers s))) as [X|[X|X]]; [|auto|];
        apply L in X; lia.
Qed.

(** *** Each tracker is asked once per torrent *)

Definition reg_count (t : nat) (l : list registration) : nat := List.length (filter (fun r => rg_torrent r =? t)%nat l).
Definition asking (j : job) : list registration := match j with Asking r => [r] | _ => [] end.
Definition ask_count (t : nat) (l : list job) : nat := reg_count t (flat_map asking l).

Lemma reg_count_app : forall t a b, reg_count t (a ++ b) = (reg_count t a + reg_count t b)%nat.
Proof. intros. unfold reg_count. rewrite filter_app, app_length. auto. Qed.
Lemma reg_count_perm : forall t a b, Permutation a b -> reg_count t a = reg_count t b.
Proof.
  intros t a b H. induction H; auto.
  - unfold reg_count in *. cbn [filter]. destruct (rg_torrent x =? t)%nat; cbn [List.length]; auto.
  - unfold reg_count. cbn [filter]. destruct (rg_torrent x =? t)%nat, (rg_torrent y =? t)%nat; auto.
  - congruence.
Qed.
Lemma ask_count_perm : forall t a b, Permutation a b -> ask_count t a = ask_count t b.
Proof. intros. apply reg_count_perm. apply Permutation_flat_map. auto. Qed.
Lemma ask_count_cons : forall t j l, ask_count t (j :: l) = (reg_count t (asking j) + ask_count t l)%nat.
Proof. intros. unfold ask_count. cbn [flat_map]. apply reg_count_app. Qed.
Lemma reg_count_one : forall t r, reg_count t [r] = if (rg_torrent r =? t)%nat then 1%nat else 0%nat.
Proof. intros. unfold reg_count. cbn [filter]. destruct (rg_torrent r =? t)%nat; auto. Qed.

Lemma between_app : forall k t a b, between k t (a ++ b) = between k t a ++ between k t b.
Proof. intros. apply filter_app. Qed.

Lemma lookup_cases : forall s o k x, nth_error (pr_trackers s) k = Some x ->
  (exists j e r, o = PLookup k j e /\ nth_error (tk_jobs x) j = Some (Asking r) /\ lookup e (tk_url x) (rg_hash r) <> OutOfFuel /\
     lookup_at s o = [{| ld_tracker := k; ld_torrent := rg_torrent r; ld_hash := rg_hash r; ld_env := e |}]) \/
  ((forall t, between k t (lookup_at s o) = []) /\
   (forall j e, o = PLookup k j e -> tracker_after s o k x = x)).
Proof.
  intros s o k x H. destruct o; try (right; split; [auto|intros; discriminate]).
  destruct (Nat.eq_dec k k0) as [<-|N].
  - cbn [lookup_at tracker_after]. rewrite H, Nat.eqb_refl. destruct (nth_error (tk_jobs x) j) as [[r|r l]|] eqn:J; try (right; split; auto; fail).
    destruct (lookup e (tk_url x) (rg_hash r)) eqn:E; try (right; split; auto; fail); left; exists j, e, r; rewrite E; repeat split; auto; discriminate.
  - right. split; [|intros j0 e0 X; congruence]. intros t. cbn [lookup_at]. destruct (nth_error (pr_trackers s) k0) as [y|]; [|auto].
    destruct (nth_error (tk_jobs y) j) as [[r|r l]|]; auto.
    assert (G : between k t [{| ld_tracker := k0; ld_torrent := rg_torrent r; ld_hash := rg_hash r; ld_env := e |}] = []).
    { unfold between. cbn [filter ld_tracker]. rewrite (proj2 (Nat.eqb_neq k0 k)) by auto. auto. }
    destruct (lookup e (tk_url y) (rg_hash r)); auto.
Qed.

Lemma ask_inv : forall sha1 p cwd d ops s, started sha1 p cwd d ops s ->
  forall k x t, nth_error (pr_trackers s) k = Some x ->
  let n := (reg_count t (pr_interface s) + reg_count t (tk_mail x) + ask_count t (tk_jobs x)
            + List.length (between k t (lookups sha1 p cwd (process_init d) ops)))%nat in
  let m := if (t <? List.length (pr_torrents s))%nat then 1%nat else 0%nat in
  (n <= m)%nat /\ (Forall never_full ops -> tk_alive x = true -> n = m).
Proof.
  intros sha1 p cwd d. refine (started_ind sha1 p cwd d _ _ _).
  - intros k x t H. cbn [process_init pr_trackers] in H. rewrite nth_error_map in H.
    destruct (nth_error tracker_urls k); [|discriminate]. injection H as <-. cbn. auto.
  - intros ops s o R OK IH k x' t H.
    rewrite tracker_nth in H. destruct (nth_error (pr_trackers s) k) as [x|] eqn:E; [|discriminate]. injection H as <-.
    specialize (IH k x t E). cbn zeta in IH |- *.
    assert (RL : pr_run sha1 p cwd (process_init d) ops = s) by (destruct R; auto).
    rewrite lookups_app, RL, between_app, app_length. cbn [lookups]. rewrite app_nil_r.
    rewrite interface_step, torrents_length.
    destruct IH as [IH1 IH2].
    assert (IH3 : Forall never_full (ops ++ [o]) -> tk_alive x = true -> never_full o /\
       (reg_count t (pr_interface s) + reg_count t (tk_mail x) + ask_count t (tk_jobs x) + List.length (between k t (lookups sha1 p cwd (process_init d) ops)))%nat
       = (if (t <? List.length (pr_torrents s))%nat then 1%nat else 0%nat)).
    { intros F A. apply Forall_app in F as [F1 F2]. inversion F2; subst. auto. }
    clear IH2. set (L := List.length (between k t (lookups sha1 p cwd (process_init d) ops))) in *.
    set (m := if (t <? List.length (pr_torrents s))%nat then 1%nat else 0%nat) in *.
    destruct (lookup_cases s o k x E) as [(j & e & r & -> & J & NF & LK)|[LK SAME]].
    + rewrite LK. cbn [accepted flat_map app List.length]. rewrite Nat.add_0_r. fold m.
      assert (B : List.length (between k t [{| ld_tracker := k; ld_torrent := rg_torrent r; ld_hash := rg_hash r; ld_env := e |}]) = reg_count t [r]).
      { rewrite reg_count_one. unfold between. cbn [filter ld_tracker ld_torrent]. rewrite Nat.eqb_refl. cbn [andb]. destruct (rg_torrent r =? t)%nat; auto. }
      rewrite B. cbn [tracker_after]. rewrite Nat.eqb_refl, J.
      pose proof (remove_perm _ _ _ _ J) as PR. rewrite (ask_count_perm t _ _ PR), ask_count_cons in IH1, IH3. cbn [asking] in IH1, IH3.
      destruct (lookup e (tk_url x) (rg_hash r)) as [[l|]| |]; [| | |congruence].
      * cbn [set_jobs tk_mail tk_jobs tk_alive].
        rewrite (ask_count_perm t _ _ (update_perm _ j (fun _ => Reporting r l) _ _ J)), ask_count_cons.
        change (reg_count t (asking (Reporting r l))) with 0%nat. split; [lia|]. intros F A. apply IH3 in F as [_ F]; [lia|auto].
      * cbn [set_jobs tk_mail tk_jobs tk_alive]. split; [lia|]. intros F A. apply IH3 in F as [_ F]; [lia|auto].
      * cbn [tracker_die tk_mail tk_jobs tk_alive]. split; [|discriminate]. change (reg_count t []) with 0%nat. change (ask_count t []) with 0%nat. lia.
    + rewrite LK. cbn [List.length]. rewrite Nat.add_0_r.
      destruct o; cbn [accepted flat_map app List.length]; rewrite ?Nat.add_0_r; fold m.
      * cbn [tracker_after]. destruct (accepts p raw) as [h|] eqn:A; cbn [app List.length].
        2:{ rewrite app_nil_r, Nat.add_0_r. fold m. split; [auto|]. intros F AL. apply IH3 in F as [_ F]; auto. }
        assert (M : ((if (t <? List.length (pr_torrents s) + 1)%nat then 1%nat else 0%nat)
          = m + (if (List.length (pr_torrents s) =? t)%nat then 1%nat else 0%nat))%nat).
        { unfold m. destruct (Nat.ltb_spec t (List.length (pr_torrents s) + 1)), (Nat.ltb_spec t (List.length (pr_torrents s))),
            (Nat.eqb_spec (List.length (pr_torrents s)) t); try lia. }
        rewrite M, reg_count_app. destruct full.
        -- change (reg_count t []) with 0%nat. split; [destruct (List.length (pr_torrents s) =? t)%nat; lia|].
           intros F AL. apply IH3 in F as [F _]; [cbn in F; discriminate|auto].
        -- rewrite reg_count_one. cbn [rg_torrent]. split; [lia|]. intros F AL. apply IH3 in F as [_ F]; [lia|auto].
      * cbn [tracker_after]. destruct (pr_interface s) as [|r rest] eqn:EI.
        { cbn [tl]. split; [auto|]. intros F AL. apply IH3 in F as [_ F]; auto. }
        cbn [tl]. assert (C : reg_count t (r :: rest) = (reg_count t [r] + reg_count t rest)%nat) by (apply (reg_count_app t [r] rest)).
        rewrite C in IH1, IH3. unfold forward. destruct (tk_alive x) eqn:AL; cbn [andb].
        -- destruct (full k) eqn:FU; cbn [negb].
           ++ split; [lia|]. intros F _. apply IH3 in F as [F _]; [|auto]. cbn in F. rewrite F in FU. discriminate.
           ++ cbn [tracker_push tk_mail tk_jobs tk_alive]. rewrite reg_count_app. split; [lia|]. intros F _. apply IH3 in F as [_ F]; [lia|auto].
        -- split; [lia|]. intros _ X. congruence.
      * cbn [tracker_after]. assert (SM : (reg_count t (pr_interface s) + reg_count t (tk_mail x) + ask_count t (tk_jobs x) + L <= m)%nat /\
          (Forall never_full (ops ++ [PTake k0]) -> tk_alive x = true -> (reg_count t (pr_interface s) + reg_count t (tk_mail x) + ask_count t (tk_jobs x) + L)%nat = m)).
        { split; [auto|]. intros F AL. apply IH3 in F as [_ F]; auto. }
        destruct (k =? k0)%nat; [|auto]. destruct (tk_mail x) as [|r rest] eqn:EM; [rewrite EM; auto|].
        cbn [tk_mail tk_jobs tk_alive]. unfold ask_count in *. rewrite flat_map_app, reg_count_app. cbn [flat_map asking app].
        assert (C : reg_count t (r :: rest) = (reg_count t [r] + reg_count t rest)%nat) by (apply (reg_count_app t [r] rest)).
        rewrite C in SM. destruct SM as [S1 S2]. split; [lia|]. intros F AL. rewrite <- (S2 F AL). lia.
      * destruct (Nat.eq_dec k k0) as [<-|NK].
        -- rewrite (SAME j e eq_refl). split; [auto|]. intros F AL. apply IH3 in F as [_ F]; auto.
        -- cbn [tracker_after]. rewrite (proj2 (Nat.eqb_neq k k0)) by auto. split; [auto|]. intros F AL. apply IH3 in F as [_ F]; auto.
      * cbn [tracker_after]. assert (SM : (reg_count t (pr_interface s) + reg_count t (tk_mail x) + ask_count t (tk_jobs x) + L <= m)%nat /\
          (Forall never_full (ops ++ [PReport k0 j connects]) -> tk_alive x = true -> (reg_count t (pr_interface s) + reg_count t (tk_mail x) + ask_count t (tk_jobs x) + L)%nat = m)).
        { split; [auto|]. intros F AL. apply IH3 in F as [_ F]; auto. }
        destruct (k =? k0)%nat; [|auto]. destruct (nth_error (tk_jobs x) j) as [[r|r [|e l]]|] eqn:J; auto;
          cbn [set_jobs tk_mail tk_jobs tk_alive]; pose proof (remove_perm _ _ _ _ J) as PR; rewrite (ask_count_perm t _ _ PR), ask_count_cons in SM.
        -- cbn [asking] in SM. change (reg_count t []) with 0%nat in SM. auto.
        -- rewrite (ask_count_perm t _ _ (update_perm _ j (fun _ => Reporting r l) _ _ J)), ask_count_cons. auto.
      * cbn [tracker_after]. split; [auto|]. intros F AL. apply IH3 in F as [_ F]; auto.
      * cbn [tracker_after]. split; [auto|]. intros F AL. apply IH3 in F as [_ F]; auto.
      * cbn [tracker_after]. split; [auto|]. intros F AL. apply IH3 in F as [_ F]; auto.
      * cbn [tracker_after]. split; [auto|]. intros F AL. apply IH3 in F as [_ F]; auto.
Qed.

Lemma lookups_known : forall sha1 p cwd d ops s, started sha1 p cwd d ops s ->
  forall x, In x (lookups sha1 p cwd (process_init d) ops) ->
  nth_error (accepted p ops) (ld_torrent x) = Some (ld_hash x) /\ (ld_tracker x < List.length tracker_urls)%nat.
Proof.
  intros sha1 p cwd d. refine (started_ind sha1 p cwd d _ _ _); [intros x []|].
  intros ops s o R OK IH x H. assert (RL : pr_run sha1 p cwd (process_init d) ops = s) by (destruct R; auto).
  rewrite lookups_app, RL in H. cbn [lookups] in H. rewrite app_nil_r in H. apply in_app_or in H as [H|H].
  - apply IH in H as [H L]. split; [|auto]. rewrite accepted_app, nth_error_app1; [auto|]. apply nth_error_Some. congruence.
  - destruct o; try contradiction. cbn [lookup_at] in H. destruct (nth_error (pr_trackers s) k) as [y|] eqn:E; [|contradiction].
    destruct (tracker_facts _ _ _ _ _ _ R) as (_ & HT & HL). destruct (HT k y E) as (_ & _ & J & _).
    destruct (nth_error (tk_jobs y) j) as [[r|]|] eqn:EJ; try contradiction.
    assert (K : known p (ops ++ [PLookup k j e]) r).
    { apply known_more. apply (J (Asking r)). eapply nth_error_In; eauto. }
    assert (X : x = {| ld_tracker := k; ld_torrent := rg_torrent r; ld_hash := rg_hash r; ld_env := e |}).
    { destruct (lookup e (tk_url y) (rg_hash r)); cbn in H; try contradiction; destruct H as [H|H]; try contradiction; auto. }
    subst x. cbn [ld_torrent ld_hash ld_tracker]. split; [exact K|]. rewrite <- HL. apply nth_error_Some. congruence.
Qed.

Lemma c55_hash : forall sha1 p cwd d ops s x, started sha1 p cwd d ops s ->
  In x (lookups sha1 p cwd (process_init d) ops) -> nth_error (accepted p ops) (ld_torrent x) = Some (ld_hash x).
Proof. intros. eapply lookups_known; eauto. Qed.

Lemma c55_once : forall sha1 p cwd d ops s k t, started sha1 p cwd d ops s ->
  (List.length (between k t (lookups sha1 p cwd (process_init d) ops)) <= 1)%nat.
Proof.
  intros sha1 p cwd d ops s k t R. destruct (nth_error (pr_trackers s) k) as [x|] eqn:E.
  - destruct (ask_inv _ _ _ _ _ _ R k x t E) as [H _]. destruct (t <? List.length (pr_torrents s))%nat; lia.
  - assert (B : between k t (lookups sha1 p cwd (process_init d) ops) = []).
    { destruct (between k t (lookups sha1 p cwd (process_init d) ops)) as [|y l] eqn:B; [auto|]. exfalso.
      assert (I : In y (between k t (lookups sha1 p cwd (process_init d) ops))) by (rewrite B; left; auto).
      apply filter_In in I as [I F]. apply andb_prop in F as [F _]. apply Nat.eqb_eq in F.
      apply (lookups_known _ _ _ _ _ _ R) in I as [_ L]. apply nth_error_None in E.
      destruct (tracker_facts _ _ _ _ _ _ R) as (_ & _ & HL). lia. }
    rewrite B. cbn. lia.
Qed.

Lemma c55_all : forall sha1 p cwd d ops s k t x, started sha1 p cwd d ops s -> Forall never_full ops -> trackers_idle s ->
  nth_error (pr_trackers s) k = Some x -> tk_alive x = true -> (t < List.length (accepted p ops))%nat ->
  List.length (between k t (lookups sha1 p cwd (process_init d) ops)) = 1%nat.
Proof.
  intros sha1 p cwd d ops s k t x R F [I1 I2] E A L. destruct (ask_inv _ _ _ _ _ _ R k x t E) as [_ H].
  specialize (H F A). destruct (I2 x (nth_error_In _ _ E)) as [M J]. rewrite I1, M, J in H.
  rewrite <- (accepted_length _ _ _ _ _ _ R) in L. apply Nat.ltb_lt in L. rewrite L in H. cbn in H. auto.
Qed.

(** *** The peers found *)

Definition job_peers (t : nat) (j : job) : list peer_endpoint :=
  match j with Reporting r l => if (rg_torrent r =? t)%nat then l else [] | _ => [] end.
Definition tracker_peers (t : nat) (x : tracker_actor) : list peer_endpoint := flat_map (job_peers t) (tk_jobs x).
Definition pending (t : nat) (s : process) : list peer_endpoint := flat_map (tracker_peers t) (pr_trackers s).

Lemma flat_map_pointwise : forall A B (g : A -> list B) l l',
  (forall k, option_map g (nth_error l' k) = option_map g (nth_error l k)) -> flat_map g l' = flat_map g l.
Proof.
  intros A B g l. induction l as [|x l IH]; intros [|y l'] H; auto.
  - specialize (H 0%nat). discriminate.
  - specialize (H 0%nat). discriminate.
  - cbn [flat_map]. pose proof (H 0%nat) as H0. cbn in H0. injection H0 as ->. f_equal. apply IH. intros k. apply (H (S k)).
Qed.

Lemma pending_same : forall sha1 p cwd s o t,
  (forall k x, nth_error (pr_trackers s) k = Some x -> tracker_peers t (tracker_after s o k x) = tracker_peers t x) ->
  pending t (pr_step sha1 p cwd s o) = pending t s.
Proof.
  intros sha1 p cwd s o t H. unfold pending. apply flat_map_pointwise. intros k. rewrite tracker_nth.
  destruct (nth_error (pr_trackers s) k) as [x|] eqn:E; cbn; [|auto]. rewrite (H k x E). auto.
Qed.

(** Only tracker [k] changes. *)
Lemma pending_one : forall sha1 p cwd s o t k x, nth_error (pr_trackers s) k = Some x ->
  (forall k' x', k' <> k -> tracker_after s o k' x' = x') ->
  exists rest, Permutation (pending t s) (tracker_peers t x ++ rest) /\
    Permutation (pending t (pr_step sha1 p cwd s o)) (tracker_peers t (tracker_after s o k x) ++ rest).
Proof.
  intros sha1 p cwd s o t k x E H. exists (flat_map (tracker_peers t) (remove_nth k (pr_trackers s))). split.
  - unfold pending.
    pose proof (Permutation_flat_map (tracker_peers t) (remove_perm _ _ _ _ E)) as P. exact P.
  - assert (EQ : pending t (pr_step sha1 p cwd s o) = flat_map (tracker_peers t) (update_nth k (tracker_after s o k) (pr_trackers s))).
    { unfold pending. apply flat_map_pointwise. intros j. rewrite tracker_nth, nth_update. destruct (Nat.eqb_spec j k) as [->|N]; [auto|].
      destruct (nth_error (pr_trackers s) j) as [y|]; cbn; [|auto]. rewrite (H j y N). auto. }
    rewrite EQ. apply (Permutation_flat_map (tracker_peers t) (update_perm _ k (tracker_after s o k) _ _ E)).
Qed.

Lemma jobs_perm : forall t j l x, nth_error l j = Some x ->
  Permutation (flat_map (job_peers t) l) (job_peers t x ++ flat_map (job_peers t) (remove_nth j l)).
Proof. intros t j l x E. apply (Permutation_flat_map (job_peers t) (remove_perm _ _ _ _ E)). Qed.
Lemma jobs_update : forall t j l x y, nth_error l j = Some x ->
  Permutation (flat_map (job_peers t) (update_nth j (fun _ => y) l)) (job_peers t y ++ flat_map (job_peers t) (remove_nth j l)).
Proof. intros t j l x y E. apply (Permutation_flat_map (job_peers t) (update_perm _ j (fun _ => y) _ _ E)). Qed.

Definition chosen (o : pop) (e : peer_endpoint) : bool :=
  match o with PReport _ _ c => is_reachable c (endpoint e) | _ => true end.

Lemma peers_for_one : forall t k r e u l, nth_error tracker_urls k = Some u ->
  (lookup e u (rg_hash r) = Ret (Ok l) \/ (l = [] /\ forall l', lookup e u (rg_hash r) <> Ret (Ok l'))) ->
  peers_for t [{| ld_tracker := k; ld_torrent := rg_torrent r; ld_hash := rg_hash r; ld_env := e |}]
  = job_peers t (Reporting r l).
Proof.
  intros t k r e u l U H. unfold peers_for, answer_peers. cbn [flat_map ld_torrent ld_tracker ld_env ld_hash job_peers].
  rewrite app_nil_r, U. destruct (rg_torrent r =? t)%nat; [|auto].
  destruct H as [->|[-> N]]; [auto|]. destruct (lookup e u (rg_hash r)) as [[l'|]| |]; auto. exfalso. eapply N; eauto.
Qed.

Lemma pending_step : forall sha1 p cwd d ops s o t, started sha1 p cwd d ops s ->
  let s' := pr_step sha1 p cwd s o in
  exists gone, new_mail s o t = map endpoint (filter (chosen o) gone) /\
    incl (pending t s' ++ gone) (pending t s ++ peers_for t (lookup_at s o)) /\
    (trackers_alive s' -> Permutation (gone ++ pending t s') (pending t s ++ peers_for t (lookup_at s o))).
Proof.
  intros sha1 p cwd d ops s o t R. cbn zeta.
  assert (Same : (forall k x, nth_error (pr_trackers s) k = Some x -> tracker_peers t (tracker_after s o k x) = tracker_peers t x) ->
    new_mail s o t = [] -> peers_for t (lookup_at s o) = [] ->
    exists gone, new_mail s o t = map endpoint (filter (chosen o) gone) /\
    incl (pending t (pr_step sha1 p cwd s o) ++ gone) (pending t s ++ peers_for t (lookup_at s o)) /\
    (trackers_alive (pr_step sha1 p cwd s o) -> Permutation (gone ++ pending t (pr_step sha1 p cwd s o)) (pending t s ++ peers_for t (lookup_at s o)))).
  { intros H1 H2 H3. exists []. rewrite H2, H3, !app_nil_r, (pending_same _ _ _ _ _ _ H1). repeat split; auto. apply incl_refl. }
  destruct o; try (apply Same; auto; fail).
  - apply Same; auto. intros k x E. cbn [tracker_after]. destruct (pr_interface s); [auto|]. unfold forward.
    destruct (tk_alive x && negb (full k)); auto.
  - apply Same; auto. intros k0 x E. cbn [tracker_after]. destruct (k0 =? k)%nat; [|auto]. destruct (tk_mail x) as [|r rest]; [auto|].
    unfold tracker_peers. cbn [tk_jobs]. rewrite flat_map_app. cbn. rewrite app_nil_r. auto.
  - destruct (nth_error (pr_trackers s) k) as [x|] eqn:E.
    2:{ apply Same; auto.
        - intros k0 x E0. cbn [tracker_after]. destruct (Nat.eqb_spec k0 k) as [->|]; [congruence|auto].
        - cbn [lookup_at]. rewrite E. auto. }
    destruct (lookup_cases s (PLookup k j e) k x E) as [(j' & e' & r & EQ & J & NF & LK)|[LK SAME]].
    + injection EQ as <- <-. rewrite LK.
      destruct (tracker_facts _ _ _ _ _ _ R) as (_ & HT & _). destruct (HT k x E) as (U & _).
      destruct (pending_one sha1 p cwd s (PLookup k j e) t k x E) as (rest & P1 & P2).
      { intros k' x' N. cbn [tracker_after]. rewrite (proj2 (Nat.eqb_neq k' k)) by auto. auto. }
      exists []. split; [auto|]. cbn [app]. rewrite app_nil_r.
      cbn [tracker_after] in P2. rewrite Nat.eqb_refl, J in P2.
      unfold tracker_peers in P1, P2.
      assert (P1' : Permutation (pending t s) (flat_map (job_peers t) (remove_nth j (tk_jobs x)) ++ rest)).
      { etransitivity; [exact P1|]. apply Permutation_app_tail. apply (jobs_perm t _ _ _ J). }
      destruct (lookup e (tk_url x) (rg_hash r)) as [[l|er]| |] eqn:LE; [| | |congruence].
      * rewrite (peers_for_one t k r e (tk_url x) l U) by auto.
        cbn [set_jobs tk_jobs] in P2.
        assert (P : Permutation (pending t (pr_step sha1 p cwd s (PLookup k j e))) (pending t s ++ job_peers t (Reporting r l))).
        { etransitivity; [exact P2|]. etransitivity; [apply Permutation_app_tail, (jobs_update t _ _ _ _ J)|].
          etransitivity; [|apply Permutation_app_comm]. rewrite <- app_assoc. apply Permutation_app_head. symmetry. exact P1'. }
        split; [intros y Y; eapply Permutation_in; [exact P|auto]|auto].
      * rewrite (peers_for_one t k r e (tk_url x) [] U) by (right; split; [auto|intros; congruence]).
        replace (job_peers t (Reporting r [])) with (@nil peer_endpoint) by (cbn; destruct (rg_torrent r =? t)%nat; auto).
        rewrite app_nil_r. cbn [set_jobs tk_jobs] in P2.
        assert (P : Permutation (pending t (pr_step sha1 p cwd s (PLookup k j e))) (pending t s)).
        { etransitivity; [exact P2|]. symmetry. exact P1'. }
        split; [intros y Y; eapply Permutation_in; [exact P|auto]|auto].
      * rewrite (peers_for_one t k r e (tk_url x) [] U) by (right; split; [auto|intros; congruence]).
        replace (job_peers t (Reporting r [])) with (@nil peer_endpoint) by (cbn; destruct (rg_torrent r =? t)%nat; auto).
        rewrite app_nil_r. cbn [tracker_die tk_jobs flat_map app] in P2. split.
        -- intros y Y. apply (Permutation_in _ P2) in Y. apply (Permutation_in _ (Permutation_sym P1')). apply in_or_app. auto.
        -- intros A. exfalso. assert (B : nth_error (pr_trackers (pr_step sha1 p cwd s (PLookup k j e))) k = Some (tracker_die x)).
           { rewrite tracker_nth, E. cbn [option_map tracker_after]. rewrite Nat.eqb_refl, J, LE. auto. }
           apply nth_error_In, A in B. discriminate.
    + assert (LN : lookup_at s (PLookup k j e) = []).
      { destruct (lookup_at s (PLookup k j e)) as [|y l] eqn:L; [auto|]. exfalso. cbn [lookup_at] in L. rewrite E in L.
        destruct (nth_error (tk_jobs x) j) as [[r|]|] eqn:J; try discriminate.
        specialize (LK (rg_torrent r)).
        destruct (lookup e (tk_url x) (rg_hash r)); try discriminate; injection L as <- <-; unfold between in LK; cbn [filter ld_tracker ld_torrent] in LK;
          rewrite !Nat.eqb_refl in LK; discriminate. }
      apply Same; [|auto|rewrite LN; auto]. intros k0 y E0. destruct (Nat.eq_dec k0 k) as [->|N].
      * rewrite E in E0. injection E0 as <-. rewrite (SAME j e eq_refl). auto.
      * cbn [tracker_after]. rewrite (proj2 (Nat.eqb_neq k0 k)) by auto. auto.
  - destruct (nth_error (pr_trackers s) k) as [x|] eqn:E.
    2:{ apply Same; auto.
        - intros k0 x E0. cbn [tracker_after]. destruct (Nat.eqb_spec k0 k) as [->|]; [congruence|auto].
        - cbn [new_mail]. rewrite E. auto. }
    destruct (pending_one sha1 p cwd s (PReport k j connects) t k x E) as (rest & P1 & P2).
    { intros k' x' N. cbn [tracker_after]. rewrite (proj2 (Nat.eqb_neq k' k)) by auto. auto. }
    destruct (nth_error (tk_jobs x) j) as [[r|r [|e l]]|] eqn:J.
    + apply Same; auto; [|cbn [new_mail]; rewrite E, J; auto]. intros k0 y E0. cbn [tracker_after]. destruct (Nat.eqb_spec k0 k) as [->|]; [|auto].
      rewrite E in E0. injection E0 as <-. rewrite J. auto.
    + exists []. cbn [lookup_at peers_for flat_map app]. rewrite !app_nil_r. split; [cbn [new_mail]; rewrite E, J; auto|].
      cbn [tracker_after] in P2. rewrite Nat.eqb_refl, J in P2. unfold tracker_peers in P1, P2. cbn [set_jobs tk_jobs] in P2.
      assert (P : Permutation (pending t (pr_step sha1 p cwd s (PReport k j connects))) (pending t s)).
      { etransitivity; [exact P2|]. symmetry. etransitivity; [exact P1|]. apply Permutation_app_tail.
        etransitivity; [apply (jobs_perm t _ _ _ J)|]. cbn [job_peers]. destruct (rg_torrent r =? t)%nat; auto. }
      split; [intros y Y; eapply Permutation_in; [exact P|auto]|auto].
    + exists (if (rg_torrent r =? t)%nat then [e] else []). cbn [lookup_at peers_for flat_map]. rewrite !app_nil_r.
      split.
      { cbn [new_mail]. rewrite E, J. destruct (rg_torrent r =? t)%nat; cbn [andb]; [|auto]. cbn [filter chosen].
        destruct (is_reachable connects (endpoint e)); auto. }
      cbn [tracker_after] in P2. rewrite Nat.eqb_refl, J in P2. unfold tracker_peers in P1, P2. cbn [set_jobs tk_jobs] in P2.
      assert (P : Permutation ((if (rg_torrent r =? t)%nat then [e] else []) ++ pending t (pr_step sha1 p cwd s (PReport k j connects))) (pending t s)).
      { etransitivity; [apply Permutation_app_head, P2|]. symmetry. etransitivity; [exact P1|].
        rewrite app_assoc. apply Permutation_app_tail. etransitivity; [apply (jobs_perm t _ _ _ J)|].
        etransitivity; [|apply Permutation_app_head; symmetry; apply (jobs_update t _ _ _ (Reporting r l) J)].
        cbn [job_peers]. destruct (rg_torrent r =? t)%nat; auto. }
      split; [|auto]. intros y Y. apply (Permutation_in _ P). apply in_app_or in Y. apply in_or_app. tauto.
    + apply Same; auto; [|cbn [new_mail]; rewrite E, J; auto]. intros k0 y E0. cbn [tracker_after]. destruct (Nat.eqb_spec k0 k) as [->|]; [|auto].
      rewrite E in E0. injection E0 as <-. rewrite J. auto.
Qed.

(** What a torrent has been told. *)
Lemma found_app : forall a b, found_peers (a ++ b) = found_peers a ++ found_peers b.
Proof. intros. unfold found_peers. apply flat_map_app. Qed.
Lemma handled_app : forall a b, handled (a ++ b) = handled a ++ handled b.
Proof. intros. unfold handled. apply flat_map_app. Qed.

Lemma found_remove : forall k l m, nth_error l k = Some m -> Permutation (found_peers l) (found_peers [m] ++ found_peers (remove_nth k l)).
Proof.
  intros k l m H. etransitivity; [apply (Permutation_flat_map _ (remove_perm _ _ _ _ H))|]. cbn [flat_map].
  unfold found_peers at 1. cbn [flat_map]. rewrite app_nil_r. auto.
Qed.

Lemma reported_step : forall sha1 p cwd x o, let x' := sys_step sha1 p cwd x o in
  incl (reported x') (reported x ++ peer_reports [o]) /\
  (sy_dead x' = false -> sy_dead x = false /\ Permutation (reported x') (reported x ++ peer_reports [o])).
Proof.
  intros sha1 p cwd x o. cbn zeta.
  assert (Same : forall x', sy_trace x' = sy_trace x -> sy_dead x' = sy_dead x ->
    (exists m, sy_mail x' = sy_mail x ++ m /\ found_peers m = peer_reports [o]) ->
    incl (reported x') (reported x ++ peer_reports [o]) /\ (sy_dead x' = false -> sy_dead x = false /\ Permutation (reported x') (reported x ++ peer_reports [o]))).
  { intros x' E1 E2 (m & E3 & E4). unfold reported. rewrite E1, E2, E3, app_assoc, found_app, E4. split; [apply incl_refl|auto]. }
  assert (Id : peer_reports [o] = [] -> incl (reported x) (reported x ++ peer_reports [o]) /\ (sy_dead x = false -> sy_dead x = false /\ Permutation (reported x) (reported x ++ peer_reports [o]))).
  { intros E. rewrite E, app_nil_r. split; [apply incl_refl|auto]. }
  destruct o as [ep|k found shuffle| |k net pid fuel|]; cbn [sys_step].
  - apply Same; cbn [sy_trace sy_dead sy_mail]; auto. exists [PeerFound ep]. auto.
  - assert (DD : sy_dead x = true \/ sy_dead x = false) by (destruct (sy_dead x); auto).
    destruct DD as [D|D]; [replace (if sy_dead x then x else _) with x by (rewrite D; auto); apply Id; auto|].
    replace (if sy_dead x then x else _) with (sys_step sha1 p cwd x (OHandle k found shuffle)) by reflexivity. cbn [sys_step]. rewrite D.
    destruct (nth_error (sy_mail x) k) as [m|] eqn:Hm; [|rewrite D in Id; rewrite D; apply Id; auto].
    change (peer_reports [OHandle k found shuffle]) with (@nil bytes). rewrite app_nil_r.
    pose proof (found_remove _ _ _ Hm) as FR.
    destruct (handle p found shuffle (sy_actor x) m) as [[a es]| |].
    + assert (P : Permutation (reported {|
        sy_actor := a; sy_dead := false; sy_mail := remove_nth k (sy_mail x); sy_queue := sy_queue x ++ requests_of es; sy_working := sy_working x;
        sy_workers := sy_workers x; sy_writer := sy_writer x ++ readies_of es; sy_writer_dead := sy_writer_dead x; sy_disk := sy_disk x;
        sy_trace := sy_trace x ++ Handled m :: map Sent es |}) (reported x)).
      { unfold reported. cbn [sy_trace sy_mail]. rewrite handled_app, handled_sent, !found_app, <- app_assoc.
        apply Permutation_app_head. symmetry. exact FR. }
      split; [intros y Y; eapply Permutation_in; [exact P|auto]|auto].
    + cbn [sy_dead]. split; [|discriminate]. unfold reported. cbn [sy_trace sy_mail]. rewrite !found_app. intros y [Y|Y]%in_app_or; apply in_or_app; [auto|].
      right. apply (Permutation_in _ (Permutation_sym FR)). apply in_or_app. auto.
    + rewrite D. split; [apply incl_refl|auto].
  - destruct (sy_queue x); [apply Id; auto|]. destruct (List.length (sy_working x) <? sy_workers x)%nat; [|apply Id; auto].
    apply Same; auto. exists []. rewrite app_nil_r. auto.
  - destruct (nth_error (sy_working x) k) as [r|]; [|apply Id; auto].
    destruct (download sha1 p fuel net pid (rq_endpoint r) (rq_info r) (rq_idx r)) as [[pc|er]| |]; [| | |apply Id; auto];
      (apply Same; [reflexivity|reflexivity|]; eexists; split; [reflexivity|reflexivity]).
  - destruct (sy_writer_dead x); [apply Id; auto|]. destruct (sy_writer x) as [|r rest]; [apply Id; auto|].
    destruct (write p cwd (sy_disk x) (rd_piece r) (rd_idx r) (rd_files r) (rd_piece_length r)); [| |apply Id; auto];
      (apply Same; [reflexivity|reflexivity|]; exists []; rewrite app_nil_r; split; reflexivity).
Qed.

Lemma peers_for_app : forall t a b, peers_for t (a ++ b) = peers_for t a ++ peers_for t b.
Proof. intros. unfold peers_for. apply flat_map_app. Qed.

Lemma reported_set : forall D x, reported (set_disk D x) = reported x.
Proof. auto. Qed.

(** A torrent that does not exist yet has no peers. *)
Lemma future_peers : forall sha1 p cwd d ops s, started sha1 p cwd d ops s ->
  pending (List.length (pr_torrents s)) s = [] /\
  peers_for (List.length (pr_torrents s)) (lookups sha1 p cwd (process_init d) ops) = [].
Proof.
  intros sha1 p cwd d ops s R. pose proof (accepted_length _ _ _ _ _ _ R) as L. split.
  - destruct (pending (List.length (pr_torrents s)) s) as [|e l] eqn:E; [auto|]. exfalso.
    assert (I : In e (pending (List.length (pr_torrents s)) s)) by (rewrite E; left; auto).
    unfold pending in I. apply in_flat_map in I as (x & X & I). unfold tracker_peers in I. apply in_flat_map in I as (j & J & I).
    destruct (tracker_facts _ _ _ _ _ _ R) as (_ & HT & _). apply In_nth_error in X as (k & X). destruct (HT k x X) as (_ & _ & JK & _).
    apply JK in J. unfold known in J. destruct j as [r|r ps]; [contradiction|]. cbn [job_peers job_reg] in *.
    destruct (Nat.eqb_spec (rg_torrent r) (List.length (pr_torrents s))) as [Q|]; [|contradiction].
    rewrite Q, L in J. assert (nth_error (accepted p ops) (List.length (accepted p ops)) = None) by (apply nth_error_None; lia). congruence.
  - destruct (peers_for (List.length (pr_torrents s)) (lookups sha1 p cwd (process_init d) ops)) as [|e l] eqn:E; [auto|]. exfalso.
    assert (I : In e (peers_for (List.length (pr_torrents s)) (lookups sha1 p cwd (process_init d) ops))) by (rewrite E; left; auto).
    unfold peers_for in I. apply in_flat_map in I as (x & X & I). apply (lookups_known _ _ _ _ _ _ R) in X as [X _].
    destruct (Nat.eqb_spec (ld_torrent x) (List.length (pr_torrents s))) as [Q|]; [|contradiction].
    rewrite Q, L in X. assert (nth_error (accepted p ops) (List.length (accepted p ops)) = None) by (apply nth_error_None; lia). congruence.
Qed.

Lemma peers_incl : forall sha1 p cwd d ops s, started sha1 p cwd d ops s ->
  forall t, incl (pending t s) (peers_for t (lookups sha1 p cwd (process_init d) ops)) /\
  forall x, nth_error (pr_torrents s) t = Some x -> incl (reported x) (map endpoint (peers_for t (lookups sha1 p cwd (process_init d) ops))).
Proof.
  intros sha1 p cwd d. refine (started_ind sha1 p cwd d _ _ _).
  - intros t. split; [|intros x H; destruct t; discriminate]. intros e H. exfalso. unfold pending in H. apply in_flat_map in H as (x & X & I).
    cbn [process_init pr_trackers] in X. apply in_map_iff in X as (u & <- & _). contradiction.
  - intros ops s o R OK IH t. assert (RL : pr_run sha1 p cwd (process_init d) ops = s) by (destruct R; auto).
    rewrite lookups_app, RL. cbn [lookups]. rewrite app_nil_r, peers_for_app, map_app.
    destruct (pending_step sha1 p cwd d ops s o t R) as (gone & NM & IN & _). destruct (IH t) as [IH1 IH2].
    assert (IN2 : incl (pending t (pr_step sha1 p cwd s o) ++ gone) (peers_for t (lookups sha1 p cwd (process_init d) ops) ++ peers_for t (lookup_at s o))).
    { intros e E. apply IN in E. apply in_app_or in E as [E|E]; apply in_or_app; auto. }
    split; [intros e E; apply IN2, in_or_app; auto|].
    assert (NI : incl (new_mail s o t) (map endpoint (peers_for t (lookups sha1 p cwd (process_init d) ops)) ++ map endpoint (peers_for t (lookup_at s o)))).
    { rewrite NM, <- map_app. intros y Y. apply in_map_iff in Y as (e & <- & E). apply filter_In in E as [E _]. apply in_map, IN2, in_or_app. auto. }
    intros x H. apply torrent_cases in H; [|auto]. destruct H as [[H _]|[(y & D & o' & H & OK' & -> & PR & _)|(raw & full & h & -> & A & -> & ->)]].
    + apply IH2 in H. intros ep E. apply in_or_app. auto.
    + destruct (reported_step sha1 p cwd (set_disk D y) o') as [RI _]. rewrite reported_set, PR in RI.
      apply IH2 in H. intros ep E. apply RI in E. apply in_app_or in E as [E|E]; [apply in_or_app; auto|auto].
    + intros e [].
Qed.

Lemma c56_only : forall sha1 p cwd d ops s t x ep, started sha1 p cwd d ops s ->
  nth_error (pr_torrents s) t = Some x -> In ep (reported x) ->
  exists e, In e (peers_for t (lookups sha1 p cwd (process_init d) ops)) /\ ep = endpoint e.
Proof.
  intros sha1 p cwd d ops s t x ep R H I. destruct (peers_incl _ _ _ _ _ _ R t) as [_ G]. apply (G x H) in I.
  apply in_map_iff in I as (e & E & I). eauto.
Qed.

Lemma alive_back : forall sha1 p cwd s o, trackers_alive (pr_step sha1 p cwd s o) -> trackers_alive s.
Proof.
  intros sha1 p cwd s o A x I. apply In_nth_error in I as (k & E). specialize (A (tracker_after s o k x)).
  destruct (tk_alive x) eqn:D; [auto|]. rewrite <- A; [|eapply nth_error_In; rewrite tracker_nth, E; reflexivity].
  destruct o; cbn [tracker_after]; auto.
  - destruct (pr_interface s); [auto|]. unfold forward. destruct (tk_alive x && negb (full k)); auto.
  - destruct (k =? k0)%nat; [|auto]. destruct (tk_mail x); auto.
  - destruct (k =? k0)%nat; [|auto]. destruct (nth_error (tk_jobs x) j) as [[r|]|]; auto. destruct (lookup e (tk_url x) (rg_hash r)) as [[]| |]; auto.
  - destruct (k =? k0)%nat; [|auto]. destruct (nth_error (tk_jobs x) j) as [[r|r [|]]|]; auto.
Qed.

Lemma reach_ext : forall c c' ep, (forall a, c a = c' a) -> is_reachable c ep = is_reachable c' ep.
Proof. intros c c' ep H. unfold is_reachable. destruct (ModelTracker.parse_socket_addr ep); auto. Qed.

Lemma filter_perm : forall A (f : A -> bool) l l', Permutation l l' -> Permutation (filter f l) (filter f l').
Proof.
  intros A f l l' H. induction H; cbn [filter]; auto.
  - destruct (f x); auto.
  - destruct (f x), (f y); auto. apply perm_swap.
  - etransitivity; eauto.
Qed.

Lemma delivered_inv : forall sha1 p cwd d c ops s, started sha1 p cwd d ops s -> Forall (reachability c) ops ->
  trackers_alive s -> forall t x, nth_error (pr_torrents s) t = Some x -> sy_dead x = false ->
  let ok e := is_reachable c (endpoint e) in
  Permutation (reported x ++ map endpoint (filter ok (pending t s)))
              (map endpoint (filter ok (peers_for t (lookups sha1 p cwd (process_init d) ops)))).
Proof.
  intros sha1 p cwd d c. refine (started_ind sha1 p cwd d _ _ _); [intros _ _ [|t] x H; discriminate|].
  intros ops s o R OK IH F AL t x H DD. cbn zeta. set (ok := fun e => is_reachable c (endpoint e)) in *.
  assert (RL : pr_run sha1 p cwd (process_init d) ops = s) by (destruct R; auto).
  apply Forall_app in F as [F1 F2]. inversion F2 as [|? ? RO _]; subst.
  rewrite lookups_app. cbn [lookups]. rewrite app_nil_r, peers_for_app, filter_app, map_app.
  specialize (IH F1 (alive_back _ _ _ _ _ AL)).
  set (s := pr_run sha1 p cwd (process_init d) ops) in *.
  destruct (pending_step sha1 p cwd d ops s o t R) as (gone & NM & _ & PM). specialize (PM AL).
  assert (NM' : new_mail s o t = map endpoint (filter ok gone)).
  { rewrite NM. destruct o; try (cbn [chosen new_mail] in NM |- *; destruct gone as [|e0 g]; [reflexivity|discriminate]).
    f_equal. apply filter_ext. intros e0. cbn [chosen]. apply reach_ext. apply RO. }
  apply (filter_perm _ ok) in PM. rewrite !filter_app in PM. apply (Permutation_map endpoint) in PM. rewrite !map_app, <- NM' in PM.
  assert (G : forall y, nth_error (pr_torrents s) t = Some y -> sy_dead y = false ->
    Permutation (reported x) (reported y ++ new_mail s o t) ->
    Permutation (reported x ++ map endpoint (filter ok (pending t (pr_step sha1 p cwd s o))))
     (map endpoint (filter ok (peers_for t (lookups sha1 p cwd (process_init d) ops))) ++ map endpoint (filter ok (peers_for t (lookup_at s o))))).
  { intros y Y DY PY. specialize (IH t y Y DY).
    etransitivity; [apply Permutation_app_tail, PY|]. rewrite <- app_assoc.
    etransitivity; [apply Permutation_app_head, PM|]. rewrite app_assoc. apply Permutation_app_tail. exact IH. }
  apply torrent_cases in H; [|auto]. destruct H as [[H Z]|[(y & D & o' & H & OK' & E & PR & _)|(raw & full & h & -> & A & E1 & E2)]].
  - apply (G x H DD). rewrite Z, app_nil_r. auto.
  - subst x. destruct (reported_step sha1 p cwd (set_disk D y) o') as [_ RP]. destruct (RP DD) as [DY PY]. rewrite reported_set, PR in PY.
    apply (G y H DY PY).
  - subst t x. destruct (future_peers _ _ _ _ _ _ R) as [FP1 FP2]. rewrite FP2. cbn [lookup_at peers_for flat_map filter map app].
    rewrite FP1 in PM. cbn [new_mail lookup_at peers_for flat_map filter map app] in PM. symmetry in PM. apply Permutation_nil in PM. rewrite PM. auto.
Qed.

Lemma c56_all : forall sha1 p cwd d c ops s t x, started sha1 p cwd d ops s -> Forall (reachability c) ops ->
  trackers_alive s -> trackers_idle s -> nth_error (pr_torrents s) t = Some x -> sy_dead x = false ->
  Permutation (reported x) (map endpoint (filter (fun e => is_reachable c (endpoint e))
    (peers_for t (lookups sha1 p cwd (process_init d) ops)))).
Proof.
  intros sha1 p cwd d c ops s t x R F A [_ I] H D. pose proof (delivered_inv _ _ _ _ _ _ _ R F A t x H D) as P.
  assert (E : pending t s = []).
  { unfold pending. assert (G : forall l, (forall y, In y l -> tk_jobs y = []) -> flat_map (tracker_peers t) l = []).
    { induction l as [|y l IHl]; intros Hl; [auto|]. cbn [flat_map]. unfold tracker_peers at 1. rewrite (Hl y) by (left; auto).
      cbn. apply IHl. intros z Z. apply Hl. right. auto. }
    apply G. intros y Y. apply I in Y as [_ Y]. auto. }
  rewrite E in P. cbn in P. rewrite app_nil_r in P. exact P.
Qed.

(** ** Trackers that have died *)

Definition gone_for_good (x : tracker_actor) : Prop := tk_alive x = false /\ tk_mail x = [] /\ tk_jobs x = [].

Lemma gone_after : forall s o k x, gone_for_good x -> tracker_after s o k x = x.
Proof.
  intros s o k x (A & M & J). destruct o; cbn [tracker_after]; auto.
  - destruct (pr_interface s); [auto|]. unfold forward. rewrite A. auto.
  - destruct (k =? k0)%nat; [|auto]. rewrite M. auto.
  - destruct (k =? k0)%nat; [|auto]. rewrite J. destruct j; auto.
  - destruct (k =? k0)%nat; [|auto]. rewrite J. destruct j; auto.
Qed.

Lemma gone_run : forall sha1 p cwd ops s k x, nth_error (pr_trackers s) k = Some x -> gone_for_good x ->
  nth_error (pr_trackers (pr_run sha1 p cwd s ops)) k = Some x /\
  forall y, In y (lookups sha1 p cwd s ops) -> ld_tracker y <> k.
Proof.
  intros sha1 p cwd ops. induction ops as [|o ops IH]; intros s k x E G; [split; [auto|intros y []]|].
  assert (E' : nth_error (pr_trackers (pr_step sha1 p cwd s o)) k = Some x).
  { rewrite tracker_nth, E. cbn [option_map]. rewrite gone_after; auto. }
  destruct (IH _ _ _ E' G) as [H1 H2]. split; [exact H1|].
  intros y [Y|Y]%in_app_or; [|auto]. intros <-. destruct o; try contradiction. cbn [lookup_at] in Y.
  destruct (nth_error (pr_trackers s) k) as [z|] eqn:Z; [|contradiction].
  destruct (nth_error (tk_jobs z) j) as [[r|]|] eqn:J; try contradiction.
  assert (Q : ld_tracker y = k).
  { destruct (lookup e (tk_url z) (rg_hash r)); cbn in Y; try contradiction; destruct Y as [<-|[]]; auto. }
  rewrite Q, Z in E. injection E as ->. destruct G as (_ & _ & J0). rewrite J0 in J. destruct j; discriminate.
Qed.

Lemma c57_dead : forall sha1 p cwd d ops s k x ops', started sha1 p cwd d ops s ->
  nth_error (pr_trackers s) k = Some x -> tk_alive x = false ->
  (exists x', nth_error (pr_trackers (pr_run sha1 p cwd s ops')) k = Some x' /\ tk_alive x' = false) /\
  forall y, In y (lookups sha1 p cwd s ops') -> ld_tracker y <> k.
Proof.
  intros sha1 p cwd d ops s k x ops' R E A. destruct (tracker_facts _ _ _ _ _ _ R) as (_ & HT & _).
  destruct (HT k x E) as (_ & _ & _ & D). destruct (D A) as [M J].
  destruct (gone_run sha1 p cwd ops' s k x E) as [H1 H2]; [split; auto|]. split; [exists x; auto|auto].
Qed.

Lemma started_app : forall sha1 p cwd d ops s ops', started sha1 p cwd d ops s -> Forall pop_ok ops' ->
  started sha1 p cwd d (ops ++ ops') (pr_run sha1 p cwd s ops').
Proof.
  intros sha1 p cwd d ops s ops' [F ->] F'. split; [apply Forall_app; auto|]. rewrite run_app. auto.
Qed.

Lemma future_lookups : forall sha1 p cwd d ops s t, started sha1 p cwd d ops s -> (List.length (accepted p ops) <= t)%nat ->
  peers_for t (lookups sha1 p cwd (process_init d) ops) = [].
Proof.
  intros sha1 p cwd d ops s t R L.
  destruct (peers_for t (lookups sha1 p cwd (process_init d) ops)) as [|e l] eqn:E; [auto|]. exfalso.
  assert (I : In e (peers_for t (lookups sha1 p cwd (process_init d) ops))) by (rewrite E; left; auto).
  unfold peers_for in I. apply in_flat_map in I as (x & X & I). apply (lookups_known _ _ _ _ _ _ R) in X as [X _].
  destruct (Nat.eqb_spec (ld_torrent x) t) as [Q|]; [|contradiction].
  assert (nth_error (accepted p ops) t = None) by (apply nth_error_None; lia). congruence.
Qed.

Lemma c57_all_dead : forall sha1 p cwd d ops s ops', started sha1 p cwd d ops s -> Forall pop_ok ops' ->
  (forall x, In x (pr_trackers s) -> tk_alive x = false) ->
  let s' := pr_run sha1 p cwd s ops' in
  lookups sha1 p cwd s ops' = [] /\
  forall t x, (List.length (pr_torrents s) <= t)%nat -> nth_error (pr_torrents s') t = Some x -> reported x = [].
Proof.
  intros sha1 p cwd d ops s ops' R F A. cbn zeta.
  assert (RL : pr_run sha1 p cwd (process_init d) ops = s) by (destruct R; auto).
  assert (LN : lookups sha1 p cwd s ops' = []).
  { destruct (lookups sha1 p cwd s ops') as [|y l] eqn:E; [auto|]. exfalso.
    assert (I : In y (lookups sha1 p cwd s ops')) by (rewrite E; left; auto).
    assert (I2 : In y (lookups sha1 p cwd (process_init d) (ops ++ ops'))) by (rewrite lookups_app, RL; apply in_or_app; auto).
    apply (lookups_known _ _ _ _ _ _ (started_app _ _ _ _ _ _ _ R F)) in I2 as [_ L].
    destruct (tracker_facts _ _ _ _ _ _ R) as (_ & _ & HL). rewrite <- HL in L. apply nth_error_Some in L.
    destruct (nth_error (pr_trackers s) (ld_tracker y)) as [x|] eqn:X; [|congruence].
    destruct (c57_dead _ _ _ _ _ _ _ _ ops' R X) as [_ G]; [apply A; eapply nth_error_In; eauto|]. apply (G y I). auto. }
  split; [auto|]. intros t x L H.
  destruct (peers_incl _ _ _ _ _ _ (started_app _ _ _ _ _ _ _ R F) t) as [_ G]. specialize (G x H).
  rewrite lookups_app, RL, LN, app_nil_r, (future_lookups _ _ _ _ _ _ _ R) in G by (rewrite <- (accepted_length _ _ _ _ _ _ R); auto).
  cbn in G. destruct (reported x) as [|e l]; [auto|]. destruct (G e). left. auto.
Qed.

(** ** Each torrent behaves as if it were alone *)


Lemma agree_step : forall sha1 p cwd a b o, agree a b -> o <> OWrite -> agree (sys_step sha1 p cwd a o) (sys_step sha1 p cwd b o).
Proof.
  intros sha1 p cwd a b o (E1 & E2 & E3 & E4 & E5 & E6 & E7) N. destruct o as [ep|k found shuffle| |k net pid fuel|]; [| | | |congruence]; cbn [sys_step].
  - unfold agree. cbn [sy_actor sy_dead sy_mail sy_queue sy_working sy_workers sy_trace]. rewrite E1, E2, E3, E4, E5, E6, E7. repeat split.
  - rewrite E2, E3, E1. destruct (sy_dead b) eqn:D; [repeat split; congruence|]. destruct (nth_error (sy_mail b) k) as [m|]; [|repeat split; congruence].
    destruct (handle p found shuffle (sy_actor b) m) as [[x es]| |]; [| |repeat split; congruence];
      unfold agree; cbn [sy_actor sy_dead sy_mail sy_queue sy_working sy_workers sy_trace]; rewrite ?E1, ?E3, ?E4, ?E5, ?E6, ?E7; repeat split.
  - rewrite E4, E5, E6. destruct (sy_queue b) eqn:Q; [repeat split; congruence|].
    destruct (List.length (sy_working b) <? sy_workers b)%nat; [|repeat split; congruence].
    unfold agree; cbn [sy_actor sy_dead sy_mail sy_queue sy_working sy_workers sy_trace]; repeat split; congruence.
  - rewrite E5. destruct (nth_error (sy_working b) k) as [r|]; [|repeat split; congruence].
    destruct (download sha1 p fuel net pid (rq_endpoint r) (rq_info r) (rq_idx r)) as [[x|x]| |]; [| | |repeat split; congruence];
      unfold agree; cbn [sy_actor sy_dead sy_mail sy_queue sy_working sy_workers sy_trace]; rewrite ?E1, ?E2, ?E3, ?E4, ?E5, ?E6, ?E7; repeat split.
Qed.

Lemma agree_write : forall sha1 p cwd a b, agree a b -> agree a (sys_step sha1 p cwd b OWrite).
Proof.
  intros sha1 p cwd a b H. cbn [sys_step]. destruct (sy_writer_dead b); [auto|]. destruct (sy_writer b) as [|r rest]; [auto|].
  destruct (write p cwd (sy_disk b) (rd_piece r) (rd_idx r) (rd_files r) (rd_piece_length r)); auto.
Qed.

Lemma c58_alone : forall sha1 p cwd d ops s, started sha1 p cwd d ops s ->
  forall t x, nth_error (pr_torrents s) t = Some x ->
  exists h s0, nth_error (accepted p ops) t = Some h /\ reached sha1 p cwd h d s0 /\ agree s0 x.
Proof.
  intros sha1 p cwd d ops s R t x H.
  assert (G : exists s0, reached sha1 p cwd (ta_info_hash (sy_actor x)) d s0 /\ agree s0 x).
  { revert ops s R t x H. refine (started_ind sha1 p cwd d _ _ _); [intros [|t] x H; discriminate|].
    intros ops s o R OK IH t x H. apply torrent_cases in H; [|auto].
    destruct H as [[H _]|[(y & D & o' & H & OK' & -> & _)|(raw & full & h & -> & A & -> & ->)]].
    - eauto.
    - destruct (IH _ _ H) as (s0 & R0 & A). rewrite step_hash. cbn [set_disk sy_actor].
      assert (A' : agree s0 (set_disk D y)) by exact A.
      destruct (is_write o') as [->|NW].
      + exists s0. split; [auto|]. apply agree_write. auto.
      + exists (sys_step sha1 p cwd s0 o'). split; [apply reached_step; auto|]. apply agree_step; auto.
    - exists (sys_init h d). split; [exists []; split; [constructor|reflexivity]|]. repeat split. }
  destruct G as (s0 & R0 & A). exists (ta_info_hash (sy_actor x)), s0. split; [|auto]. eapply torrent_hash; eauto.
Qed.

(** What was handed to the writer of a torrent. *)
Lemma readies_good : forall sha1 p cwd d ops s, started sha1 p cwd d ops s ->
  forall t x, nth_error (pr_torrents s) t = Some x ->
  match ta_info (sy_actor x) with
  | None => to_writer (sy_trace x) = []
  | Some i => exists n files, pieces_of p i n /\ get_files i = Ok files /\ Forall (good_ready sha1 i files n) (to_writer (sy_trace x))
  end.
Proof.
  intros sha1 p cwd d ops s R t x H. destruct (c58_alone _ _ _ _ _ _ R t x H) as (h & s0 & _ & R0 & (E1 & _ & _ & _ & _ & _ & E7)).
  apply inv_reached in R0. unfold inv in R0. rewrite E1, E7 in R0. destruct (ta_info (sy_actor x)) as [i|]; [|tauto].
  destruct R0 as (D & W5 & n & fs & q & lost & PO & GF & EP & PM & LW & NI & II & FQ0 & FM0 & FR & FT). exists n, fs. auto.
Qed.

Lemma suffix_step : forall sha1 p cwd x o, o <> OWrite -> (exists done, to_writer (sy_trace x) = done ++ sy_writer x) ->
  let x' := sys_step sha1 p cwd x o in
  sy_writer_dead x' = sy_writer_dead x /\ sy_disk x' = sy_disk x /\
  (exists done, to_writer (sy_trace x) = done ++ sy_writer x /\ to_writer (sy_trace x') = done ++ sy_writer x') /\ written x' = written x.
Proof.
  intros sha1 p cwd x o N (done & E). cbn zeta.
  destruct (step_trace sha1 p cwd x o) as [(ET & EA)|(k & found & shuffle & m & a & es & -> & _ & _ & _ & ET & _ & _ & EW & _ & _ & ED & EWD & _)].
  - destruct (step_writer_same sha1 p cwd x o N ET EA) as (EW & ED & EWD). split; [auto|]. split; [auto|].
    assert (E' : to_writer (sy_trace (sys_step sha1 p cwd x o)) = done ++ sy_writer (sys_step sha1 p cwd x o)) by congruence.
    split; [exists done; auto|]. rewrite (written_prefix _ _ E'), (written_prefix _ _ E). auto.
  - split; [auto|]. split; [auto|].
    assert (E' : to_writer (sy_trace (sys_step sha1 p cwd x (OHandle k found shuffle))) = done ++ sy_writer (sys_step sha1 p cwd x (OHandle k found shuffle))).
    { rewrite ET, EW, trace_app_writer, E, app_assoc. auto. }
    split; [exists done; auto|]. rewrite (written_prefix _ _ E'), (written_prefix _ _ E). auto.
Qed.

Lemma info_stable : forall sha1 p cwd x o i, ta_info (sy_actor x) = Some i -> ta_info (sy_actor (sys_step sha1 p cwd x o)) = Some i.
Proof.
  intros sha1 p cwd x o i E. destruct (step_trace sha1 p cwd x o) as [(_ & ->)|(k & found & shuffle & m & a & es & -> & _ & _ & EH & _ & EA & _)]; [auto|].
  rewrite EA. apply handle_ready in EH as [[H|H] _]; congruence.
Qed.

(** Torrents survive a step and keep what they know. *)
Lemma torrent_forward : forall sha1 p cwd s o t x, nth_error (pr_torrents s) t = Some x ->
  exists x', nth_error (pr_torrents (pr_step sha1 p cwd s o)) t = Some x' /\
    (forall i, ta_info (sy_actor x) = Some i -> ta_info (sy_actor x') = Some i) /\
    (forall plen T, collision sha1 plen T x -> collision sha1 plen T x').
Proof.
  intros sha1 p cwd s o t x H.
  assert (TS : forall s0 u o', pr_torrents s0 = pr_torrents s -> exists x', nth_error (pr_torrents (torrent_step sha1 p cwd s0 u o')) t = Some x' /\
    (forall i, ta_info (sy_actor x) = Some i -> ta_info (sy_actor x') = Some i) /\ (forall plen T, collision sha1 plen T x -> collision sha1 plen T x')).
  { intros s0 u o' E. rewrite torrent_nth, E, H. destruct (t =? u)%nat; cbn [option_map].
    - eexists. split; [reflexivity|]. split.
      + intros i I. apply info_stable. exact I.
      + intros plen T C. apply (collision_step sha1 p cwd plen T (set_disk (pr_disk s0) x)). exact C.
    - exists x. auto. }
  assert (Same : forall s', pr_torrents s' = pr_torrents s -> exists x', nth_error (pr_torrents s') t = Some x' /\
    (forall i, ta_info (sy_actor x) = Some i -> ta_info (sy_actor x') = Some i) /\ (forall plen T, collision sha1 plen T x -> collision sha1 plen T x')).
  { intros s' E. rewrite E. exists x. auto. }
  destruct o; cbn [pr_step]; auto.
  - destruct (add_cases p full raw s) as [(h & A & _ & E)|(A & _ & E)]; rewrite E; [|auto]. exists x. cbn [pr_torrents].
    rewrite nth_error_app1 by (apply nth_error_Some; congruence). auto.
  - apply Same. destruct (pr_interface s); auto.
  - destruct (nth_error (pr_trackers s) k) as [y|]; [|auto]. destruct (nth_error (tk_jobs y) j) as [[r|r [|e l]]|]; auto.
    destruct (is_reachable connects (endpoint e)); auto.
  - destruct (nth_error (pr_torrents s) t0) as [y|]; [|auto].
    destruct (nth_error (sy_mail y) k) as [[]|]; auto. destruct (ta_info (sy_actor y)); auto. destruct (sy_dead y); auto.
    destruct (collect_info accept fuel cwd (pr_disk s) net pid (ta_info_hash (sy_actor y)) ep) as [[found dd]| |]; auto.
Qed.

(** ** The common disk *)

Definition only_downloads (cwd : loc) (d d' : fs) : Prop := forall l, ~ in_saved cwd l -> d' l = d l.

Lemma downloads_made_only : forall cwd d, only_downloads cwd d (downloads_made cwd d).
Proof.
  intros cwd d l N. unfold downloads_made.
  cbn [walk_create]. change (bytes_eqb dot [] || bytes_eqb dot dot) with true. cbv iota.
  change (bytes_eqb downloads [] || bytes_eqb downloads dot) with false. change (bytes_eqb downloads dotdot) with false. cbv iota zeta.
  destruct (d (cwd ++ [downloads])) as [[|c]|]; auto. apply set_other. intros E. apply N. subst l. exists []. rewrite app_nil_r. auto.
Qed.

Lemma collect_only : forall accept fuel cwd d net pid ih ep r d',
  collect_info accept fuel cwd d net pid ih ep = Ret (r, d') -> only_downloads cwd d d'.
Proof.
  intros accept fuel cwd d net pid ih ep r d' H l N. apply c51_elsewhere in H. apply H. intros [E|[E|[]]].
  - apply N. subst l. exists []. rewrite app_nil_r. auto.
  - apply N. subst l. unfold in_downloads. exists [encode_binary ih]. rewrite <- app_assoc. auto.
Qed.

(** Files that are not in the directory of descriptions do not notice changes there. *)
Lemma outside_not_in : forall cwd fs f q r, outside_downloads fs -> In f fs -> f_path f = q ++ r -> q <> [] -> ~ in_saved cwd (cwd ++ q).
Proof.
  intros cwd fs f q r O I E N (c & X). specialize (O f I). rewrite E in O. destruct q as [|a q]; [congruence|]. cbn in O.
  rewrite <- app_assoc in X. apply app_inv_head in X. cbn in X. injection X as X _. congruence.
Qed.
Lemma path_nonempty : forall files f, good_files files -> In f files -> f_path f <> [].
Proof. intros files f [G _] I. rewrite Forall_forall in G. apply G in I as [I _]. auto. Qed.

Lemma ready_only : forall cwd files d d', good_files files -> outside_downloads files -> only_downloads cwd d d' ->
  disk_ready cwd files d -> disk_ready cwd files d'.
Proof.
  intros cwd files d d' G O C R f I. destruct (R f I) as [R1 R2]. split.
  - intros q r E NQ NR. rewrite C by (eapply outside_not_in; eauto). eauto.
  - rewrite C; [auto|]. eapply outside_not_in; [eauto|eauto|symmetry; apply app_nil_r|]. eapply path_nonempty; eauto.
Qed.
Lemma holds_only : forall cwd files T d d' g, good_files files -> outside_downloads files -> only_downloads cwd d d' ->
  holds cwd files T d g -> holds cwd files T d' g.
Proof.
  intros cwd files T d d' g G O C H k f Hk L. destruct (H k f Hk L) as (c & E & X). exists c. rewrite C; [auto|].
  assert (In f files) by (eapply nth_error_In; eauto).
  eapply outside_not_in; [eauto|eauto|symmetry; apply app_nil_r|]. eapply path_nonempty; eauto.
Qed.

(** A write of one torrent and the files of another. *)
Lemma disjoint_unrelated : forall cwd fs gs g, disjoint fs gs -> In g gs -> f_path g <> [] -> unrelated cwd fs (cwd ++ f_path g).
Proof.
  intros cwd fs gs g D I N f q r F E NQ X. apply app_inv_head in X. destruct (D f g F I) as [_ A]. apply A. exists r. congruence.
Qed.

Lemma ready_beside : forall cwd fs gs d d', good_files gs -> disjoint fs gs ->
  disk_ready cwd fs d' -> (forall l, unrelated cwd fs l -> d' l = d l) -> disk_ready cwd gs d -> disk_ready cwd gs d'.
Proof.
  intros cwd fs gs d d' G D R U H g I. pose proof (path_nonempty _ _ G I) as NE. destruct (H g I) as [H1 H2]. split.
  - intros q r E NQ NR.
    (* either the directory is on the way to a file of the other torrent, or it is unrelated *)
    assert (C : (exists f r', In f fs /\ f_path f = q ++ r') \/ (forall f r', In f fs -> f_path f <> q ++ r')).
    { clear - fs. induction fs as [|f fs IH]; [right; intros f r' []|].
      assert (X : (exists r', f_path f = q ++ r') \/ (forall r', f_path f <> q ++ r')).
      { clear IH. generalize (f_path f) as a. induction q as [|y q IHq]; intros a; [left; exists a; auto|].
        destruct a as [|z a]; [right; intros r' X; discriminate|]. destruct (bytes_dec y z) as [->|N].
        - destruct (IHq a) as [(r' & X)|X]; [left; exists r'; cbn; congruence|right; intros r' Y; injection Y as Y; eapply X; eauto].
        - right. intros r' Y. injection Y as Y _. congruence. }
      destruct X as [(r' & X)|X]; [left; exists f, r'; split; [left; auto|auto]|].
      destruct IH as [(f0 & r' & I & E)|IH]; [left; exists f0, r'; split; [right; auto|auto]|].
      right. intros f0 r' [<-|I]; auto. }
    destruct C as [(f & r' & F & EF)|C].
    + destruct (R f F) as [R1 _]. apply (R1 q r' EF NQ). intros ->. rewrite app_nil_r in EF.
      destruct (D f g F I) as [A _]. apply A. exists r. congruence.
    + rewrite U; [eauto|]. intros f q' r' F EF NQ' X. apply app_inv_head in X. subst q'. eapply C; eauto.
  - rewrite U; [auto|]. eapply disjoint_unrelated; eauto.
Qed.
Lemma holds_beside : forall cwd fs gs T d d' n, good_files gs -> disjoint fs gs ->
  (forall l, unrelated cwd fs l -> d' l = d l) -> holds cwd gs T d n -> holds cwd gs T d' n.
Proof.
  intros cwd fs gs T d d' n G D U H k g Hk L. destruct (H k g Hk L) as (c & E & X). exists c. rewrite U; [auto|].
  assert (I : In g gs) by (eapply nth_error_In; eauto). eapply disjoint_unrelated; eauto. eapply path_nonempty; eauto.
Qed.

Lemma pr_disk_step : forall sha1 p cwd s t o, o <> OWrite -> pr_disk (torrent_step sha1 p cwd s t o) = pr_disk s.
Proof.
  intros sha1 p cwd s t o N. unfold torrent_step. destruct (nth_error (pr_torrents s) t) as [x|]; [|auto]. cbn [pr_disk].
  destruct o as [ep|k found shuffle| |k net pid fuel|]; [| | | |congruence]; cbn [sys_step set_disk sy_dead sy_mail sy_actor sy_queue sy_working sy_workers sy_disk]; auto.
  - destruct (sy_dead x); [auto|]. destruct (nth_error (sy_mail x) k); [|auto]. destruct (handle p found shuffle (sy_actor x) t0) as [[a es]| |]; auto.
  - destruct (sy_queue x); [auto|]. destruct (List.length (sy_working x) <? sy_workers x)%nat; auto.
  - destruct (nth_error (sy_working x) k); [|auto]. destruct (download sha1 p fuel net pid (rq_endpoint p0) (rq_info p0) (rq_idx p0)) as [[|]| |]; auto.
Qed.

Lemma disk_cases : forall sha1 p cwd s o, (exists t, o = PWrite t) \/
  ((forall t, o <> PWrite t) /\ only_downloads cwd (pr_disk s) (pr_disk (pr_step sha1 p cwd s o))).
Proof.
  intros sha1 p cwd s o.
  assert (Same : forall d', d' = pr_disk s -> only_downloads cwd (pr_disk s) d') by (intros d' -> l _; auto).
  destruct o; try (left; eexists; reflexivity); right; (split; [discriminate|]); cbn [pr_step].
  - apply Same. destruct (add_cases p full raw s) as [(h & _ & _ & E)|(_ & _ & E)]; rewrite E; auto.
  - apply Same. destruct (pr_interface s); auto.
  - apply Same. auto.
  - apply Same. auto.
  - apply Same. destruct (nth_error (pr_trackers s) k) as [x|]; [|auto].
    destruct (nth_error (tk_jobs x) j) as [[r|r [|e rest]]|]; auto.
    destruct (is_reachable connects (endpoint e)); [rewrite pr_disk_step by discriminate|]; auto.
  - destruct (nth_error (pr_torrents s) t) as [x|]; [|apply Same; auto].
    destruct (nth_error (sy_mail x) k) as [[]|]; try (apply Same; apply pr_disk_step; discriminate).
    destruct (ta_info (sy_actor x)); try (apply Same; apply pr_disk_step; discriminate).
    destruct (sy_dead x); try (apply Same; apply pr_disk_step; discriminate).
    destruct (collect_info accept fuel cwd (pr_disk s) net pid (ta_info_hash (sy_actor x)) ep) as [[found d]| |] eqn:C.
    + rewrite pr_disk_step by discriminate. cbn [pr_disk with_disk]. eapply collect_only; eauto.
    + rewrite pr_disk_step by discriminate. cbn [pr_disk with_disk]. apply downloads_made_only.
    + cbn [pr_disk with_disk]. apply downloads_made_only.
  - apply Same. apply pr_disk_step. discriminate.
  - apply Same. apply pr_disk_step. discriminate.
Qed.

Definition disk_good (cwd : loc) (F : nat -> list file) (T : nat -> bytes) (n : nat) (d : fs) (s : process) : Prop :=
  (forall t, (t < n)%nat -> disk_ready cwd (F t) (pr_disk s) /\ (forall g, holds cwd (F t) (T t) d g -> holds cwd (F t) (T t) (pr_disk s) g)) /\
  (forall l, (forall t, (t < n)%nat -> unrelated cwd (F t) l) -> ~ in_saved cwd l -> pr_disk s l = d l) /\
  (forall t x, nth_error (pr_torrents s) t = Some x ->
     sy_writer_dead x = false /\ (exists done, to_writer (sy_trace x) = done ++ sy_writer x) /\
     forall i g, ta_info (sy_actor x) = Some i -> In (g / i_piece_length i)%N (written x) -> holds cwd (F t) (T t) (pr_disk s) g).

Lemma told_back : forall sha1 p cwd F T s o, told sha1 F T (pr_step sha1 p cwd s o) -> told sha1 F T s.
Proof.
  intros sha1 p cwd F T s o H t x i E I. destruct (torrent_forward sha1 p cwd s o t x E) as (x' & E' & G & _). eapply H; eauto.
Qed.
Lemma some_collision_step : forall sha1 p cwd T s o, some_collision sha1 T s -> some_collision sha1 T (pr_step sha1 p cwd s o).
Proof.
  intros sha1 p cwd T s o (t & x & i & E & I & C). destruct (torrent_forward sha1 p cwd s o t x E) as (x' & E' & G & H). exists t, x', i. auto.
Qed.

(** The files of all torrents when the disk changed from one good state to another. *)
Lemma disk_good_change : forall cwd F T n d s s',
  disk_good cwd F T n d s ->
  (forall t, (t < n)%nat -> disk_ready cwd (F t) (pr_disk s')) ->
  (forall t g, (t < n)%nat -> holds cwd (F t) (T t) (pr_disk s) g -> holds cwd (F t) (T t) (pr_disk s') g) ->
  (forall l, (forall t, (t < n)%nat -> unrelated cwd (F t) l) -> ~ in_saved cwd l -> pr_disk s' l = pr_disk s l) ->
  (List.length (pr_torrents s') <= n)%nat ->
  (forall t x', nth_error (pr_torrents s') t = Some x' ->
    sy_writer_dead x' = false /\ (exists done, to_writer (sy_trace x') = done ++ sy_writer x') /\
    (written x' = [] \/ exists x, nth_error (pr_torrents s) t = Some x /\
       (forall i, ta_info (sy_actor x') = Some i -> forall g, In (g / i_piece_length i)%N (written x') ->
         (ta_info (sy_actor x) = Some i /\ In (g / i_piece_length i)%N (written x)) \/ holds cwd (F t) (T t) (pr_disk s') g))) ->
  disk_good cwd F T n d s'.
Proof.
  intros cwd F T n d s s' (G1 & G2 & G3) R H U LN X. split; [|split].
  - intros t L. destruct (G1 t L) as [_ A]. auto.
  - intros l UL NS. rewrite U; auto.
  - intros t x' E. destruct (X t x' E) as (A & B & C). split; [auto|]. split; [auto|]. intros i g I W.
    destruct C as [C|(x & EX & C)]; [rewrite C in W; destruct W|]. destruct (C i I g W) as [[I' W']|]; [|auto].
    apply H; [assert (t < List.length (pr_torrents s'))%nat by (apply nth_error_Some; congruence); lia|].
    destruct (G3 t x EX) as (_ & _ & G). eauto.
Qed.

Lemma written_none : forall x, to_writer (sy_trace x) = [] -> written x = [].
Proof. intros x E. unfold written. rewrite E. rewrite firstn_nil. auto. Qed.

Lemma piece_of_byte : forall plen g i, (0 < plen)%N -> (g / plen)%N = i -> (i * plen <= g < (i + 1) * plen)%N.
Proof. intros plen g i P <-. pose proof (N.div_mod g plen ltac:(lia)). pose proof (N.mod_lt g plen ltac:(lia)). nia. Qed.

Lemma disk_good_run : forall sha1 p cwd F T n d ops s, started sha1 p cwd d ops s ->
  apart n F T -> (forall t, (t < n)%nat -> disk_ready cwd (F t) d) ->
  (List.length (pr_torrents s) <= n)%nat -> told sha1 F T s ->
  some_collision sha1 T s \/ disk_good cwd F T n d s.
Proof.
  intros sha1 p cwd F T n d ops s R [AG AP] DR. revert ops s R. refine (started_ind sha1 p cwd d _ _ _).
  { intros _ _. right. split; [auto|]. split; [auto|]. intros t x H. destruct t; discriminate. }
  intros ops s o R OK IH LN TD.
  assert (R' : started sha1 p cwd d (ops ++ [o]) (pr_step sha1 p cwd s o)).
  { change (pr_step sha1 p cwd s o) with (pr_run sha1 p cwd s [o]). apply started_app; auto. }
  assert (LN' : (List.length (pr_torrents s) <= List.length (pr_torrents (pr_step sha1 p cwd s o)))%nat).
  { rewrite torrents_length. lia. }
  destruct IH as [C|G]; [lia|eapply told_back; eauto|left; apply some_collision_step; auto|].
  (* the torrents a step leaves alone, or runs without writing *)
  assert (Quiet : forall t x', nth_error (pr_torrents (pr_step sha1 p cwd s o)) t = Some x' -> o <> PWrite t ->
    sy_writer_dead x' = false /\ (exists done, to_writer (sy_trace x') = done ++ sy_writer x') /\
    (written x' = [] \/ exists x, nth_error (pr_torrents s) t = Some x /\
       (forall i, ta_info (sy_actor x') = Some i -> forall g, In (g / i_piece_length i)%N (written x') ->
         (ta_info (sy_actor x) = Some i /\ In (g / i_piece_length i)%N (written x)) \/ holds cwd (F t) (T t) (pr_disk (pr_step sha1 p cwd s o)) g))).
  { intros t x' H NW. destruct G as (_ & _ & G3). pose proof H as H0. apply torrent_cases in H; [|auto].
    destruct H as [[H _]|[(y & D & o' & H & OK' & -> & _ & WO)|(raw & full & h & -> & A & -> & ->)]].
    - destruct (G3 t x' H) as (A & B & _). split; [auto|]. split; [auto|]. right. exists x'. auto.
    - destruct (G3 t y H) as (A & B & _).
      assert (NO : o' <> OWrite) by (intros ->; apply NW; auto).
      destruct (suffix_step sha1 p cwd (set_disk D y) o' NO B) as (E1 & E2 & (done & E3 & E4) & E5).
      split; [rewrite E1; exact A|]. split; [exists done; auto|].
      destruct (ta_info (sy_actor y)) as [i0|] eqn:I0.
      + right. exists y. split; [auto|]. intros i EI g W. left.
        assert (EI' : ta_info (sy_actor (sys_step sha1 p cwd (set_disk D y) o')) = Some i0) by (apply info_stable; exact I0).
        rewrite EI' in EI. injection EI as <-. rewrite E5 in W. split; [auto|exact W].
      + left. rewrite E5. pose proof (readies_good _ _ _ _ _ _ R t y H) as Z. rewrite I0 in Z. apply written_none. exact Z.
    - split; [auto|]. split; [exists []; auto|]. left. auto. }
  destruct (disk_cases sha1 p cwd s o) as [(u & ->)|OD].
  - (* a write *)
    destruct (nth_error (pr_torrents s) u) as [x|] eqn:EX.
    2: { right. cbn [pr_step]. unfold torrent_step. rewrite EX. exact G. }
    assert (UN : (u < n)%nat) by (assert (u < List.length (pr_torrents s))%nat by (apply nth_error_Some; congruence); lia).
    pose proof (told_back _ _ _ _ _ _ _ TD) as TD0.
    assert (CC : (exists i, ta_info (sy_actor x) = Some i /\ collision sha1 (i_piece_length i) (T u) x) \/
      (forall i, ta_info (sy_actor x) = Some i -> forall r, In r (to_writer (sy_trace x)) ->
        sha1 (rd_piece r) = sha1 (torrent_piece (T u) (i_piece_length i) (rd_idx r)) -> rd_piece r = torrent_piece (T u) (i_piece_length i) (rd_idx r))).
    { destruct (ta_info (sy_actor x)) as [i|]; [|right; discriminate].
      destruct (no_collision sha1 (i_piece_length i) (T u) x) as [C|NC]; [left; eauto|]. right. intros j E. injection E as <-. auto. }
    destruct CC as [(i & EI & C)|NC]; [left; apply some_collision_step; exists u, x, i; auto|]. right.
    pose proof G as (G1 & G2 & G3). destruct (G3 u x EX) as (WD & (done & ED) & HW).
    assert (ST : pr_step sha1 p cwd s (PWrite u) = torrent_step sha1 p cwd s u OWrite) by reflexivity.
    unfold torrent_step in ST. rewrite EX in ST.
    cbn [sys_step set_disk sy_writer_dead sy_writer sy_disk sy_actor sy_dead sy_mail sy_queue sy_working sy_workers sy_trace] in ST.
    rewrite WD in ST. destruct (sy_writer x) as [|r rest] eqn:EW.
    { eapply disk_good_change; rewrite ?ST; cbn [pr_disk pr_torrents set_disk sy_disk]; [exact G|intros t L; apply G1; auto|auto|auto|rewrite update_length; lia|].
      intros t x' H. destruct (Nat.eqb_spec t u) as [->|TU].
      - rewrite nth_update, Nat.eqb_refl, EX in H. cbn [option_map] in H. injection H as <-. cbn [set_disk sy_writer_dead sy_writer sy_trace sy_actor].
        split; [auto|]. split; [exists done; rewrite EW; auto|]. right. exists x. auto.
      - rewrite ST in Quiet. apply Quiet; [auto|congruence]. }
    pose proof (readies_good _ _ _ _ _ _ R u x EX) as RG.
    destruct (ta_info (sy_actor x)) as [i|] eqn:EI; [|rewrite RG in ED; destruct done; discriminate].
    destruct RG as (np & fs & PO & GF & FR).
    assert (DE : describes sha1 i (F u) (T u)) by (eapply TD0; eauto).
    pose proof (describes_count sha1 p i (F u) (T u) np DE PO) as EN.
    assert (DE' := DE). destruct DE' as (GF' & TL & L64 & PP & GD & HS). apply c11_files in GF'.
    assert (fs = F u) by congruence. subst fs.
    assert (IR : In r (to_writer (sy_trace x))) by (rewrite ED; apply in_or_app; right; left; auto).
    rewrite Forall_forall in FR. destruct (FR r IR) as (F1 & F2 & F3 & F4).
    assert (RP : rd_piece r = torrent_piece (T u) (i_piece_length i) (rd_idx r)).
    { apply (NC i); [auto|auto|]. rewrite F4. apply HS. subst np. auto. }
    destruct (write_piece_right p cwd (F u) (i_piece_length i) (T u) (rd_idx r) (pr_disk s) TL L64 PP GD (proj1 (G1 u UN)) ltac:(subst np; auto))
      as (d2 & W2 & DR2 & H2 & U2 & _).
    rewrite RP, F1, F2, W2 in ST. cbn [sy_disk] in ST.
    assert (ON : forall t, (t < n)%nat -> disk_ready cwd (F t) d2 /\ forall g, holds cwd (F t) (T t) (pr_disk s) g -> holds cwd (F t) (T t) d2 g).
    { intros t L. destruct (AP u t UN L) as [[E1 E2]|DJ].
      - rewrite <- E1, <- E2. split; [auto|]. intros g HG. apply H2. auto.
      - destruct (AG t L) as [GT _]. destruct (G1 t L) as [RT _]. split; [eapply ready_beside; eauto|]. intros g. eapply holds_beside; eauto. }
    eapply disk_good_change; rewrite ?ST; cbn [pr_disk pr_torrents sy_disk].
    + exact G.
    + intros t L. apply ON; auto.
    + intros t g L. apply ON; auto.
    + intros l UL _. apply U2. auto.
    + rewrite update_length. lia.
    + intros t x' H. destruct (Nat.eqb_spec t u) as [->|TU].
      * rewrite nth_update, Nat.eqb_refl, EX in H. cbn [option_map] in H. injection H as <-. cbn [sy_writer_dead sy_writer sy_trace sy_actor].
        assert (ED' : to_writer (sy_trace x) = (done ++ [r]) ++ rest) by (rewrite ED, <- app_assoc; auto).
        split; [auto|]. split; [exists (done ++ [r]); auto|]. right. exists x. split; [auto|]. intros j EJ g W.
        assert (j = i) by congruence. subst j.
        assert (EWx : written x = map rd_idx done) by (apply written_prefix; rewrite EW; auto).
        erewrite written_prefix in W by (cbn [sy_trace sy_writer]; exact ED'). rewrite map_app in W. apply in_app_or in W as [W|W].
        -- left. split; [auto|]. rewrite EWx. auto.
        -- right. apply H2. right. apply piece_of_byte; [auto|]. destruct W as [W|[]]. auto.
      * rewrite ST in Quiet. apply Quiet; [auto|congruence].
  - destruct OD as [NW OD]. right. eapply disk_good_change; [exact G| | | | |].
    + intros t L. destruct (AG t L). destruct G as (G1 & _). eapply ready_only; eauto. apply G1; auto.
    + intros t g L. destruct (AG t L). eapply holds_only; eauto.
    + intros l _ NS. apply OD. auto.
    + auto.
    + intros t x' H. apply Quiet; [auto|]. apply NW.
Qed.

Lemma c58_disk : forall sha1 p cwd F T d ops s, started sha1 p cwd d ops s ->
  apart (List.length (pr_torrents s)) F T -> (forall t, (t < List.length (pr_torrents s))%nat -> disk_ready cwd (F t) d) ->
  told sha1 F T s ->
  some_collision sha1 T s \/
  (forall t x, nth_error (pr_torrents s) t = Some x ->
    sy_writer_dead x = false /\ disk_ready cwd (F t) (pr_disk s) /\
    (forall g, holds cwd (F t) (T t) d g -> holds cwd (F t) (T t) (pr_disk s) g) /\
    forall i, ta_info (sy_actor x) = Some i ->
      (forall g, In (g / i_piece_length i)%N (written x) -> holds cwd (F t) (T t) (pr_disk s) g) /\
      ((forall idx, (idx < piece_count (lenN (T t)) (i_piece_length i))%N -> In idx (written x)) ->
        forall k f, nth_error (F t) k = Some f -> (0 < f_length f)%N ->
          pr_disk s (cwd ++ f_path f) = Some (NFile (file_content (T t) (F t) k f)))) /\
  (forall l, (forall t, (t < List.length (pr_torrents s))%nat -> unrelated cwd (F t) l) -> ~ in_saved cwd l -> pr_disk s l = d l).
Proof.
  intros sha1 p cwd F T d ops s R AP DR TD.
  destruct (disk_good_run _ _ _ _ _ _ _ _ _ R AP DR (le_n _) TD) as [C|(G1 & G2 & G3)]; [auto|]. right. split; [|auto].
  intros t x H. assert (L : (t < List.length (pr_torrents s))%nat) by (apply nth_error_Some; congruence).
  destruct (G1 t L) as [R1 H1]. destruct (G3 t x H) as (W & _ & HW). split; [auto|]. split; [auto|]. split; [auto|].
  intros i EI. split; [eauto|]. intros ALL k f Hk Lf.
  destruct (TD t x i H EI) as (GF' & TL & L64 & PP & GD & HS).
  apply all_held; auto. intros g G. apply (HW i); [auto|]. apply ALL. apply index_in_range; auto.
Qed.

(** ** Requests *)

Lemma c54_hex : forall p raw h, hex_link raw h -> accepts p raw = Some h.
Proof.
  intros p raw h (x & rest & -> & L & U & V & Z). unfold accepts. rewrite V. rewrite (proj2 (N.leb_le _ _) Z). cbn [andb].
  change (s2b "magnet:?xt=urn:btih:" ++ x ++ s2b "&" ++ rest) with (s2b "magnet:?" ++ s2b "xt=urn:btih:" ++ x ++ s2b "&" ++ rest).
  rewrite (c18_good p (s2b "xt=urn:btih:") x rest h); auto.
Qed.

Lemma c54_accepts_len : forall p raw h, accepts p raw = Some h -> (List.length h = 20 \/ List.length h = 32)%nat /\ firstn 8 raw = s2b "magnet:?".
Proof.
  intros p raw h H. unfold accepts in H. destruct ((lenN raw <=? 262144)%N && utf8_valid raw); [|discriminate].
  destruct (parse_magnet p raw) as [[h'|]| |] eqn:E; try discriminate. injection H as ->.
  destruct (bytes_dec (firstn 8 raw) (s2b "magnet:?")) as [F|F].
  - split; [|auto]. destruct (Nat.lt_ge_cases 60 (List.length raw)) as [L|L].
    + destruct (c18_total p raw F L) as [(h2 & E2 & L2)|(_ & E2 & _)]; congruence.
    + destruct (Nat.lt_ge_cases (List.length raw) 60) as [L'|L'].
      * rewrite (c18_rejected p raw) in E by auto. discriminate.
      * rewrite (c18_sixty p raw) in E by (auto; lia). discriminate.
  - rewrite (c18_rejected p raw) in E by auto. discriminate.
Qed.

Lemma c54_request : forall p full raw s,
  let (a, s') := add_magnet p full raw s in
  match accepts p raw with
  | Some h => a = Answer 200 (s2b "Test") /\ pr_torrents s' = pr_torrents s ++ [sys_init h (pr_disk s)] /\
      pr_trackers s' = pr_trackers s /\ pr_disk s' = pr_disk s /\
      pr_interface s' = pr_interface s ++ (if full then [] else [{| rg_hash := h; rg_torrent := List.length (pr_torrents s) |}])
  | None => s' = s /\ a = if (262144 <? lenN raw)%N then Answer 413 [] else if utf8_valid raw then NoAnswer else Answer 400 []
  end.
Proof.
  intros p full raw s. unfold add_magnet, accepts.
  destruct (262144 <? lenN raw)%N eqn:L.
  - replace (lenN raw <=? 262144)%N with false by (symmetry; apply N.leb_gt; apply N.ltb_lt; auto). cbn. auto.
  - replace (lenN raw <=? 262144)%N with true by (symmetry; apply N.leb_le; apply N.ltb_ge; auto). cbn [andb].
    destruct (utf8_valid raw); cbn [negb]; [|auto].
    destruct (parse_magnet p raw) as [[h|]| |]; auto. cbn [pr_torrents pr_trackers pr_disk pr_interface].
    split; [auto|]. split; [auto|]. split; [auto|]. split; [auto|]. destruct full; [rewrite app_nil_r; auto|auto].
Qed.

Lemma c54_count : forall sha1 p cwd d ops s, started sha1 p cwd d ops s ->
  map (fun x => ta_info_hash (sy_actor x)) (pr_torrents s) = accepted p ops.
Proof.
  intros sha1 p cwd d ops s R. apply nth_ext_error. intros t. rewrite nth_error_map.
  destruct (nth_error (pr_torrents s) t) as [x|] eqn:E; cbn [option_map].
  - symmetry. eapply torrent_hash; eauto.
  - symmetry. apply nth_error_None. rewrite <- (accepted_length _ _ _ _ _ _ R). apply nth_error_None. auto.
Qed.

Lemma c57_outage : forall sha1 p cwd d ops s ops', started sha1 p cwd d ops s -> Forall pop_ok ops' ->
  (forall x, In x (pr_trackers s) -> tk_alive x = false) ->
  let s' := pr_run sha1 p cwd s ops' in
  lookups sha1 p cwd s ops' = [] /\
  forall t x, nth_error (pr_torrents s') t = Some x ->
    ((List.length (pr_torrents s) <= t)%nat -> reported x = []) /\
    (forall ep, In ep (reported x) -> exists e, In e (peers_for t (lookups sha1 p cwd (process_init d) ops)) /\ ep = endpoint e).
Proof.
  intros sha1 p cwd d ops s ops' R F A. cbn zeta. destruct (c57_all_dead _ _ _ _ _ _ ops' R F A) as [H1 H2]. cbn zeta in H2.
  split; [auto|]. intros t x E. split; [eauto|]. intros ep I.
  assert (RL : pr_run sha1 p cwd (process_init d) ops = s) by (destruct R; auto).
  destruct (c56_only _ _ _ _ _ _ t x ep (started_app _ _ _ _ _ _ _ R F) E I) as (e & IE & ->).
  rewrite lookups_app, RL, H1, app_nil_r in IE. eauto.
Qed.

Lemma c54_any : forall p full raw s,
  let (a, s') := add_magnet p full raw s in
  (exists h, (List.length h = 20 \/ List.length h = 32)%nat /\ firstn 8 raw = s2b "magnet:?" /\
     a = Answer 200 (s2b "Test") /\ pr_torrents s' = pr_torrents s ++ [sys_init h (pr_disk s)] /\ pr_disk s' = pr_disk s) \/
  (s' = s /\ a = if (262144 <? lenN raw)%N then Answer 413 [] else if utf8_valid raw then NoAnswer else Answer 400 []).
Proof.
  intros p full raw s. pose proof (c54_request p full raw s) as R. destruct (add_magnet p full raw s) as [a s'].
  destruct (accepts p raw) as [h|] eqn:A; [|auto]. left. exists h. destruct (c54_accepts_len p raw h A). tauto.
Qed.

Lemma no_answers : forall l t e, flat_map answer_peers l = [] -> ~ In e (peers_for t l).
Proof.
  intros l t e Z I. unfold peers_for in I. apply in_flat_map in I as (y & Y & I). destruct (ld_torrent y =? t)%nat; [|contradiction].
  assert (J : In e (flat_map answer_peers l)) by (apply in_flat_map; eauto). rewrite Z in J. contradiction.
Qed.
