(** Completion of command names (C56, C85, C86). *)
From Coq Require Import Sorting.Sorted.
From Verif Require Import Base BaseFacts Context Completion PropertiesContext.

(** The alphabetical order: at the first difference the smaller character. *)
Inductive before : str -> str -> Prop :=
| before_end p y b : before p (p ++ y :: b)
| before_here p x y a b : (x < y)%N -> before (p ++ x :: a) (p ++ y :: b).

(** The name [x] is in a directory of the PATH value [p]. *)
Definition in_path (fs : str -> directory) (p x : str) : Prop :=
  exists ds d l, path_entries p ds /\ In d ds /\ fs d = Some l /\ In (Some x) l.
(** All entries of the directories of [p] can be read. *)
Definition all_readable (fs : str -> directory) (p : str) : Prop :=
  forall ds d l, path_entries p ds -> In d ds -> fs d = Some l -> ~ In None l.

Lemma before_cons c a b : before a b -> before (c :: a) (c :: b).
Proof. intros [p y b'|p x y a' b' H]; [apply (before_end (c :: p))|apply (before_here (c :: p)); exact H]. Qed.
Lemma leb_before a : forall b, str_leb a b = true <-> a = b \/ before a b.
Proof.
  assert (H1 : forall a b, before a b -> str_leb a b = true).
  { clear. intros a b [p y b'|p x y a' b' H].
    - induction p as [|c p IH]; [reflexivity|]. cbn. rewrite N.eqb_refl. exact IH.
    - induction p as [|c p IH]; cbn; [|rewrite N.eqb_refl; exact IH].
      destruct (N.eqb_spec x y); [lia|]. apply N.ltb_lt. exact H. }
  assert (H2 : forall a, str_leb a a = true) by (clear; induction a as [|c a IH]; cbn; [reflexivity|rewrite N.eqb_refl; exact IH]).
  induction a as [|x a IH]; intros b.
  - split; [|intros _; reflexivity]. intros _. destruct b as [|y b]; [left; reflexivity|right; apply (before_end [])].
  - split.
    + destruct b as [|y b]; [discriminate|]. cbn. destruct (N.eqb_spec x y) as [->|Hn].
      * intros H. apply IH in H. destruct H as [->|H]; [left; reflexivity|right; apply before_cons; exact H].
      * intros H. apply N.ltb_lt in H. right. apply (before_here [] x y a b H).
    + intros [<-|H]; [apply H2|apply H1; exact H].
Qed.
Lemma leb_total a : forall b, str_leb a b = true \/ str_leb b a = true.
Proof.
  induction a as [|x a IH]; intros [|y b]; cbn; auto. rewrite (N.eqb_sym y x). destruct (N.eqb_spec x y); [apply IH|].
  rewrite !N.ltb_lt. lia.
Qed.
Lemma leb_trans a : forall b c, str_leb a b = true -> str_leb b c = true -> str_leb a c = true.
Proof.
  induction a as [|x a IH]; intros [|y b] [|z c]; cbn; try congruence.
  destruct (N.eqb_spec x y) as [E1|E1], (N.eqb_spec y z) as [E2|E2], (N.eqb_spec x z) as [E3|E3];
    rewrite ?N.ltb_lt; try lia; try congruence. apply IH.
Qed.

Definition leb_le (a b : str) : Prop := str_leb a b = true.
Lemma insert_In x a l : In x (insert_sorted a l) <-> x = a \/ In x l.
Proof.
  induction l as [|b l IH]; cbn [insert_sorted].
  - cbn. intuition congruence.
  - destruct (str_leb a b); cbn [In]; [intuition congruence|]. rewrite IH. intuition.
Qed.
Lemma sort_In x l : In x (sort l) <-> In x l.
Proof. induction l as [|a l IH]; [reflexivity|]. cbn [sort fold_right]. rewrite insert_In. cbn [In]. fold (sort l). rewrite IH. intuition. Qed.
Lemma insert_StronglySorted a l : StronglySorted leb_le l -> StronglySorted leb_le (insert_sorted a l).
Proof.
  induction 1 as [|b l Hs IH Hf]; cbn [insert_sorted]; [repeat constructor|].
  destruct (str_leb a b) eqn:E.
  - constructor; [constructor; assumption|]. constructor; [exact E|]. eapply Forall_impl; [|exact Hf].
    intros c Hc. eapply leb_trans; eassumption.
  - constructor; [exact IH|]. apply Forall_forall. intros x Hx. apply insert_In in Hx. destruct Hx as [->|Hx].
    + destruct (leb_total a b) as [H|H]; [congruence|exact H].
    + rewrite Forall_forall in Hf. apply Hf, Hx.
Qed.
Lemma sort_sorted l : StronglySorted leb_le (sort l).
Proof. induction l as [|a l IH]; [constructor|]. apply insert_StronglySorted. exact IH. Qed.
Lemma insert_NoDup a l : ~ In a l -> NoDup l -> NoDup (insert_sorted a l).
Proof.
  intros Ha H. induction H as [|b l Hb H IH]; cbn [insert_sorted]; [repeat constructor; auto|].
  destruct (str_leb a b); [repeat constructor; assumption|]. constructor.
  - intros K. apply insert_In in K. destruct K as [->|K]; [apply Ha; left; reflexivity|contradiction].
  - apply IH. intros K. apply Ha. right. exact K.
Qed.
Lemma sort_NoDup l : NoDup l -> NoDup (sort l).
Proof.
  induction 1 as [|a l Ha H IH]; [constructor|]. cbn [sort fold_right]. apply insert_NoDup; [|exact IH].
  fold (sort l). rewrite sort_In. exact Ha.
Qed.
Lemma strictly l : StronglySorted leb_le l -> NoDup l -> StronglySorted before l.
Proof.
  induction 1 as [|a l Hs IH Hf]; intros Hd; [constructor|]. inversion Hd as [|? ? Ha Hd']; subst. constructor; [apply IH, Hd'|].
  apply Forall_forall. intros x Hx. rewrite Forall_forall in Hf. specialize (Hf x Hx). apply leb_before in Hf.
  destruct Hf as [->|Hf]; [contradiction|exact Hf].
Qed.

Lemma add_entries_spec line l : forall es, NoDup es ->
  match add_entries line l es with
  | None => In None l
  | Some es' => ~ In None l /\ NoDup es' /\ (forall x, In x es' <-> In x es \/ In (Some x) l /\ exists t, x = line ++ t)
  end.
Proof.
  induction l as [|[n|] l IH]; intros es Hd; cbn [add_entries].
  - split; [intros []|]. split; [exact Hd|]. intros x. split; [auto|intros [H|[[] _]]; exact H].
  - assert (Hskip : (~ (exists t, n = line ++ t) \/ In n es) ->
      match add_entries line l es with
      | None => In None (Some n :: l)
      | Some es' => ~ In None (Some n :: l) /\ NoDup es' /\ (forall x, In x es' <-> In x es \/ In (Some x) (Some n :: l) /\ exists t, x = line ++ t)
      end).
    { intros Hs. specialize (IH es Hd). destruct (add_entries line l es) as [es'|]; [|right; exact IH].
      destruct IH as (I1 & I2 & I3). split; [intros [K|K]; [discriminate|contradiction]|]. split; [exact I2|].
      intros x. rewrite I3. cbn [In]. split; [intuition|]. intros [H|[[H|H] Ht]]; [auto| |auto].
      injection H as ->. destruct Hs as [Hs|Hs]; [contradiction|auto]. }
    destruct (starts_with line n) eqn:E; cbn [negb].
    2:{ apply Hskip. left. intros H. apply starts_with_iff in H. congruence. }
    apply starts_with_iff in E. destruct (existsb (str_eqb n) es) eqn:Ex.
    { apply Hskip. right. apply existsb_exists in Ex. destruct Ex as (y & Hy & Ey). apply str_eqb_eq in Ey. subst y. exact Hy. }
    assert (Hn : ~ In n es).
    { intros H. apply not_true_iff_false in Ex. apply Ex. apply existsb_exists. exists n. split; [exact H|apply str_eqb_eq; reflexivity]. }
    assert (Hd' : NoDup (es ++ [n])).
    { clear -Hd Hn. induction Hd as [|a es Ha Hd IH]; [repeat constructor; intros []|].
      cbn [app]. constructor; [|apply IH; intros K; apply Hn; right; exact K]. rewrite in_app_iff. intros [K|[K|[]]]; [contradiction|].
      apply Hn. left. symmetry. exact K. }
    specialize (IH (es ++ [n]) Hd'). destruct (add_entries line l (es ++ [n])) as [es'|]; [|right; exact IH].
    destruct IH as (I1 & I2 & I3). split; [intros [K|K]; [discriminate|contradiction]|]. split; [exact I2|].
    intros x. rewrite I3, in_app_iff. cbn [In]. split.
    + intros [[H|[<-|[]]]|[H Ht]]; auto.
    + intros [H|[[H|H] Ht]]; auto. injection H as ->. auto.
  - left. reflexivity.
Qed.
Lemma add_directories_spec fs line ps : forall es, NoDup es ->
  match add_directories fs line ps es with
  | None => exists d l, In d ps /\ fs d = Some l /\ In None l
  | Some es' => (forall d l, In d ps -> fs d = Some l -> ~ In None l) /\ NoDup es' /\
      (forall x, In x es' <-> In x es \/ (exists d l, In d ps /\ fs d = Some l /\ In (Some x) l) /\ exists t, x = line ++ t)
  end.
Proof.
  induction ps as [|p ps IH]; intros es Hd; cbn [add_directories].
  - split; [intros d l []|]. split; [exact Hd|]. intros x. split; [auto|]. intros [H|[(d & l & [] & _) _]]. exact H.
  - destruct (fs p) as [l|] eqn:Ef.
    + pose proof (add_entries_spec line l es Hd) as Ha. destruct (add_entries line l es) as [es1|].
      2:{ exists p, l. split; [left; reflexivity|]. split; assumption. }
      destruct Ha as (A1 & A2 & A3). specialize (IH es1 A2). destruct (add_directories fs line ps es1) as [es'|].
      2:{ destruct IH as (d & l' & H1 & H2 & H3). exists d, l'. split; [right; exact H1|]. split; assumption. }
      destruct IH as (I1 & I2 & I3). split; [|split; [exact I2|]].
      * intros d l' [<-|H] E; [rewrite Ef in E; injection E as <-; exact A1|apply (I1 d l' H E)].
      * intros x. rewrite I3, A3. split.
        -- intros [[H|[H Ht]]|[(d & l' & H1 & H2 & H3) Ht]]; [auto| |].
           ++ right. split; [|exact Ht]. exists p, l. cbn [In]. auto.
           ++ right. split; [|exact Ht]. exists d, l'. cbn [In]. auto.
        -- intros [H|[(d & l' & [<-|H1] & H2 & H3) Ht]]; [auto| |].
           ++ rewrite Ef in H2. injection H2 as <-. auto.
           ++ right. split; [|exact Ht]. exists d, l'. auto.
    + specialize (IH es Hd). destruct (add_directories fs line ps es) as [es'|].
      2:{ destruct IH as (d & l' & H1 & H2 & H3). exists d, l'. split; [right; exact H1|]. split; assumption. }
      destruct IH as (I1 & I2 & I3). split; [|split; [exact I2|]].
      * intros d l' [<-|H] E; [congruence|apply (I1 d l' H E)].
      * intros x. rewrite I3. split.
        -- intros [H|[(d & l' & H1 & H2 & H3) Ht]]; [auto|]. right. split; [|exact Ht]. exists d, l'. cbn [In]. auto.
        -- intros [H|[(d & l' & [<-|H1] & H2 & H3) Ht]]; [auto|congruence|]. right. split; [|exact Ht]. exists d, l'. auto.
Qed.

(** * C56 *)

(** The candidates: in strict alphabetical order, exactly the names in the
    readable directories of PATH that start with the line. *)
Theorem C56_candidates_partial : forall fs p line pos, all_readable fs p ->
  exists r, complete (Some p) fs line pos = Some (0, r) /\ StronglySorted before r /\
    forall x, In x r <-> in_path fs p x /\ exists t, x = line ++ t.
Proof.
  intros fs p line pos Hr. unfold complete, command_complete.
  pose proof (add_directories_spec fs line (split_char (ch ":") p) [] (NoDup_nil _)) as H.
  destruct (add_directories fs line (split_char (ch ":") p) []) as [es|].
  2:{ destruct H as (d & l & H1 & H2 & H3). exfalso. apply (Hr (split_char (ch ":") p) d l); [apply entries_split; reflexivity|assumption..]. }
  destruct H as (H1 & H2 & H3). exists (sort es). split; [reflexivity|]. split.
  - apply strictly; [apply sort_sorted|apply sort_NoDup; exact H2].
  - intros x. rewrite sort_In, H3. cbn [In]. split.
    + intros [[]|[(d & l & K1 & K2 & K3) Ht]]. split; [|exact Ht]. exists (split_char (ch ":") p), d, l.
      split; [apply entries_split; reflexivity|auto].
    + intros [(ds & d & l & K0 & K1 & K2 & K3) Ht]. right. split; [|exact Ht]. apply entries_split in K0. subst ds. exists d, l. auto.
Qed.
(** There is only one such list. *)
Lemma before_irrefl a : ~ before a a.
Proof.
  intros H. assert (K : forall b, before a b -> a = b -> False); [|exact (K a H eq_refl)].
  clear. intros b [p y b'|p x y a' b' H] E.
  - assert (K : p ++ [] = p ++ y :: b') by (rewrite app_nil_r; exact E). apply app_inv_head in K. discriminate.
  - apply app_inv_head in E. injection E as -> _. lia.
Qed.
Lemma before_trans a b c : before a b -> before b c -> before a c.
Proof.
  intros H1 H2. assert (L : str_leb a c = true) by (apply (leb_trans a b c); apply leb_before; auto).
  apply leb_before in L. destruct L as [->|L]; [|exact L]. exfalso.
  assert (H : before b c -> before c b -> b = c).
  { clear. intros Hbc Hcb. assert (K1 : str_leb b c = true) by (apply leb_before; auto). assert (K2 : str_leb c b = true) by (apply leb_before; auto).
    clear Hbc Hcb. revert c K1 K2. induction b as [|x b IH]; intros [|y c]; cbn; try congruence. rewrite (N.eqb_sym y x).
    destruct (N.eqb_spec x y) as [->|Hn]; [intros K1 K2; f_equal; apply IH; assumption|]. rewrite !N.ltb_lt. lia. }
  specialize (H H2 H1). subst b. exact (before_irrefl _ H1).
Qed.
Theorem C56_unique : forall r r', StronglySorted before r -> StronglySorted before r' -> (forall x, In x r <-> In x r') -> r = r'.
Proof.
  intros r r' H. revert r'. induction H as [|a r Hs IH Hf]; intros r' H' E.
  - destruct r' as [|b r']; [reflexivity|]. exfalso. apply (E b). left. reflexivity.
  - destruct H' as [|b r' Hs' Hf']; [exfalso; apply (E a); left; reflexivity|]. rewrite Forall_forall in Hf, Hf'.
    assert (a = b).
    { destruct (proj1 (E a) (or_introl eq_refl)) as [H|H]; [symmetry; exact H|].
      destruct (proj2 (E b) (or_introl eq_refl)) as [K|K]; [exact K|].
      exfalso. apply (before_irrefl a). apply (before_trans a b a); [apply Hf, K|apply Hf', H]. }
    subst b. f_equal. apply IH; [exact Hs'|]. intros x. specialize (E x). cbn [In] in E.
    assert (Hx : In x r -> x <> a) by (intros H ->; apply (before_irrefl a), Hf, H).
    assert (Hx' : In x r' -> x <> a) by (intros H ->; apply (before_irrefl a), Hf', H).
    split; intros H; [destruct (proj1 E (or_intror H)) as [K|K]|destruct (proj2 E (or_intror H)) as [K|K]]; try exact K; exfalso;
      [apply (Hx H)|apply (Hx' H)]; symmetry; exact K.
Qed.
Definition ex_fs (d : str) : directory :=
  if str_eqb d (lit "/bin") then Some (map (fun x => Some (lit x)) ["ls"; "cat"; "login"]%string)
  else if str_eqb d (lit "/usr/bin") then Some (map (fun x => Some (lit x)) ["less"; "ls"]%string) else None.
Example C56_example :
  all_readable ex_fs (lit "/bin:/none:/usr/bin") /\
  complete (Some (lit "/bin:/none:/usr/bin")) ex_fs (lit "l") 1 = Some (0, map lit ["less"; "login"; "ls"]%string).
Proof.
  split; [|vm_compute; reflexivity]. intros ds d l Hp Hd. apply entries_split in Hp. subst ds.
  vm_compute in Hd. destruct Hd as [<-|[<-|[<-|[]]]]; vm_compute; intros E; try discriminate;
    injection E as <-; cbn; intuition discriminate.
Qed.

(** The full statement fails: the shell crashes exactly when PATH is not in the
    environment, or when some entry of a directory cannot be read - even one
    that does not matter for the line. *)
Theorem C56_crash_refuted : forall path fs line pos, complete path fs line pos = None <->
  (path = None \/ exists p, path = Some p /\ ~ all_readable fs p).
Proof.
  intros [p|] fs line pos.
  2:{ cbn. split; [auto|reflexivity]. }
  split.
  - intros H. right. exists p. split; [reflexivity|]. intros Hr.
    destruct (C56_candidates_partial fs p line pos Hr) as (r & E & _). congruence.
  - intros [H|(p' & E & H)]; [discriminate|]. injection E as <-. unfold complete, command_complete.
    pose proof (add_directories_spec fs line (split_char (ch ":") p) [] (NoDup_nil _)) as K.
    destruct (add_directories fs line (split_char (ch ":") p) []) as [es|]; [|reflexivity].
    exfalso. apply H. intros ds d l Hp Hd El. apply entries_split in Hp. subst ds. apply (proj1 K d l Hd El).
Qed.
Example C56_crash_example :
  complete (Some (lit "/bin")) (fun _ => Some [Some (lit "ls"); None]) (lit "zz") 2 = None /\
  complete None ex_fs (lit "l") 1 = None.
Proof. split; vm_compute; reflexivity. Qed.

(** * C85: completing the word at the cursor *)

(** What the line editor makes of a candidate: the text between the position and
    the cursor is replaced. *)
Definition accept (line : str) (pos start : nat) (c : str) : str := firstn start line ++ c ++ skipn pos line.

(** On the first word, with the cursor at its end, accepting a candidate
    completes the word. *)
Theorem C85_first_word_partial : forall fs p line, all_readable fs p ->
  exists start r, complete (Some p) fs line (List.length line) = Some (start, r) /\
    forall c, In c r -> accept line (List.length line) start c = c /\ exists t, c = line ++ t.
Proof.
  intros fs p line Hr. destruct (C56_candidates_partial fs p line (List.length line) Hr) as (r & E & _ & H).
  exists 0, r. split; [exact E|]. intros c Hc. unfold accept. cbn [firstn app]. rewrite skipn_all, app_nil_r.
  split; [reflexivity|]. apply H, Hc.
Qed.
(** The full statement fails: after a blank nothing is ever offered (unless file
    names have blanks), and in the middle of a line the rest is doubled up. *)
Theorem C85_refuted :
  (forall fs p cmd arg pos, all_readable fs p -> (forall x, in_path fs p x -> ~ In (ch " ") x) ->
     complete (Some p) fs (cmd ++ lit " " ++ arg) pos = Some (0, [])) /\
  (exists c, complete (Some (lit "/bin")) ex_fs (lit "ca") 1 = Some (0, [c]) /\ accept (lit "ca") 1 0 c = lit "cata").
Proof.
  split.
  - intros fs p cmd arg pos Hr Hb. destruct (C56_candidates_partial fs p (cmd ++ lit " " ++ arg) pos Hr) as (r & E & _ & H).
    rewrite E. destruct r as [|x r]; [reflexivity|]. exfalso. destruct (proj1 (H x) (or_introl eq_refl)) as [Hin [t Ht]].
    apply (Hb x Hin). rewrite Ht. rewrite <- !app_assoc. apply in_or_app. right. left. reflexivity.
  - eexists. split; vm_compute; reflexivity.
Qed.
Example C85_example :
  (forall x, in_path ex_fs (lit "/bin") x -> ~ In (ch " ") x) /\
  complete (Some (lit "/bin")) ex_fs (lit "cat l") 5 = Some (0, []).
Proof.
  split; [|vm_compute; reflexivity]. intros x (ds & d & l & Hp & Hd & El & Hx). apply entries_split in Hp. subst ds.
  vm_compute in Hd. destruct Hd as [<-|[]]. vm_compute in El. injection El as <-. cbn in Hx.
  destruct Hx as [Hx|[Hx|[Hx|[]]]]; injection Hx as <-; vm_compute; intuition discriminate.
Qed.

(** * C86: what is offered can be run *)

(** When the variable PATH is the one in the environment and the entries are
    files, every command that is offered is found when it is run; and nothing
    that would be found is left out. *)
Theorem C86_runnable_partial : forall fs isfile p line pos m start r, path_value m = Some p ->
  (forall d x l, fs d = Some l -> In (Some x) l -> isfile (d ++ lit "/" ++ x) = true) ->
  complete (Some p) fs line pos = Some (start, r) ->
  forall c, In c r -> exists q, lookup_command isfile c m = Some (Some q).
Proof.
  intros fs isfile p line pos m start r Hp Hf E c Hc.
  assert (Hr : all_readable fs p).
  { intros ds d l Hd Hin Hl Hn. assert (K : complete (Some p) fs line pos = None); [|congruence].
    apply C56_crash_refuted. right. exists p. split; [reflexivity|]. intros H. exact (H ds d l Hd Hin Hl Hn). }
  destruct (C56_candidates_partial fs p line pos Hr) as (r' & E' & _ & H). rewrite E in E'. injection E' as -> ->.
  apply H in Hc. destruct Hc as [(ds & d & l & Hd & Hin & Hl & Hx) _].
  destruct (lookup_command isfile c m) as [[q|]|] eqn:El; [exists q; reflexivity| |].
  - apply C32_lookup_not_found in El. destruct El as (p' & ds' & Hp' & He & Hall). rewrite Hp in Hp'. injection Hp' as <-.
    apply entries_split in He. apply entries_split in Hd. subst ds ds'. rewrite Forall_forall in Hall.
    specialize (Hall d Hin). rewrite (Hf d c l Hl Hx) in Hall. discriminate.
  - apply C32_lookup_panics in El. congruence.
Qed.
Theorem C86_all_partial : forall fs isfile p line pos m c q start r, path_value m = Some p ->
  (forall d x, ~ In (ch "/") x -> isfile (d ++ lit "/" ++ x) = true -> exists l, fs d = Some l /\ In (Some x) l) ->
  lookup_command isfile c m = Some (Some q) -> ~ In (ch "/") c -> (exists t, c = line ++ t) ->
  complete (Some p) fs line pos = Some (start, r) -> In c r.
Proof.
  intros fs isfile p line pos m c q start r Hp Hf El Hs Ht E.
  assert (Hr : all_readable fs p).
  { intros ds d l Hd Hin Hl Hn. assert (K : complete (Some p) fs line pos = None); [|congruence].
    apply C56_crash_refuted. right. exists p. split; [reflexivity|]. intros H. exact (H ds d l Hd Hin Hl Hn). }
  destruct (C56_candidates_partial fs p line pos Hr) as (r' & E' & _ & H). rewrite E in E'. injection E' as -> ->.
  apply H. split; [|exact Ht]. apply C32_lookup_found in El. destruct El as (p' & pre & d & post & Hp' & He & -> & Hq & _).
  rewrite Hp in Hp'. injection Hp' as <-. destruct (Hf d c Hs Hq) as (l & Hl & Hx).
  exists (pre ++ d :: post), d, l. split; [exact He|]. split; [apply in_or_app; right; left; reflexivity|]. split; assumption.
Qed.
(** The full statement fails when PATH was changed in the shell: completion goes
    on with the value of the environment. *)
Definition ex_isfile (p : str) : bool := existsb (str_eqb p) (map lit ["/bin/ls"; "/bin/cat"; "/bin/login"; "/usr/bin/less"; "/usr/bin/ls"]%string).
Definition ex_path_cm (p : string) : cmgr := Cmgr [Context [(lit "PATH", Var (lit p) false)] [] []] [0] [].
Theorem C86_refuted :
  exists m, path_value m = Some (lit "/usr/bin") /\
    (exists r, complete (Some (lit "/bin")) ex_fs (lit "cat") 3 = Some (0, r) /\ In (lit "cat") r) /\
    lookup_command ex_isfile (lit "cat") m = Some None.
Proof.
  exists (ex_path_cm "/usr/bin"). split; [reflexivity|]. split; [eexists; split; [vm_compute; reflexivity|left; reflexivity]|vm_compute; reflexivity].
Qed.
Example C86_example :
  path_value (ex_path_cm "/bin:/usr/bin") = Some (lit "/bin:/usr/bin") /\
  complete (Some (lit "/bin:/usr/bin")) ex_fs (lit "l") 1 = Some (0, map lit ["less"; "login"; "ls"]%string) /\
  lookup_command ex_isfile (lit "less") (ex_path_cm "/bin:/usr/bin") = Some (Some (lit "/usr/bin/less")) /\
  (forall d x l, ex_fs d = Some l -> In (Some x) l -> ex_isfile (d ++ lit "/" ++ x) = true).
Proof.
  split; [reflexivity|]. split; [vm_compute; reflexivity|]. split; [vm_compute; reflexivity|].
  intros d x l Hl Hx. unfold ex_fs in Hl. destruct (str_eqb d (lit "/bin")) eqn:E1.
  - apply str_eqb_eq in E1. subst d. injection Hl as <-. cbn [map In] in Hx.
    destruct Hx as [Hx|[Hx|[Hx|[]]]]; injection Hx as <-; vm_compute; reflexivity.
  - destruct (str_eqb d (lit "/usr/bin")) eqn:E2; [|discriminate]. apply str_eqb_eq in E2. subst d. injection Hl as <-. cbn [map In] in Hx.
    destruct Hx as [Hx|[Hx|[]]]; injection Hx as <-; vm_compute; reflexivity.
Qed.

Print Assumptions C56_candidates_partial.
Print Assumptions C56_unique.
Print Assumptions C56_crash_refuted.
Print Assumptions C85_first_word_partial.
Print Assumptions C85_refuted.
Print Assumptions C86_runnable_partial.
Print Assumptions C86_all_partial.
Print Assumptions C86_refuted.
