(** Proofs about repeated runs. *)
From Coq Require Import String Ascii.
From Verif Require Import Base ModelPackages ModelFiles ModelUpdate SpecFiles SpecUpdate FilesProofs.
Local Open Scope string_scope.
Local Open Scope list_scope.
Local Open Scope nat_scope.

Lemma resource_max : forall l last, 0 < last -> resource_time last l = if existsb (Nat.eqb 0) l then 0 else Nat.max last (fold_right Nat.max 0 l).
Proof.
  induction l as [|x l IH]; intros last H; cbn [resource_time existsb fold_right]; [lia|].
  destruct (Nat.ltb_spec last x) as [L|L].
  - rewrite IH by lia. destruct (Nat.eqb_spec 0 x); [lia|]. cbn [orb]. destruct (existsb (Nat.eqb 0) l); lia.
  - rewrite (Nat.eqb_sym x 0). destruct (Nat.eqb_spec 0 x); cbn [orb]; [reflexivity|]. rewrite IH by lia. destruct (existsb (Nat.eqb 0) l); lia.
Qed.
Lemma installed_time l : resource_time 0 l = installed l.
Proof.
  unfold installed. destruct l as [|x l]; [reflexivity|]. cbn [resource_time existsb fold_right]. destruct (Nat.ltb_spec 0 x) as [L|L].
  - rewrite resource_max by exact L. destruct (Nat.eqb_spec 0 x); [lia|]. reflexivity.
  - destruct x; [reflexivity|lia].
Qed.

(** ** The header tells the options and versions *)
Definition decode (s : string) : flags :=
  let has x := match String.index 0 x s with Some _ => true | None => false end in
  {| f_writer := has "writerCode"; f_pubsub := has "pubsubCode"; f_service := has "serviceCode"; f_sql := has "sqlCode"; f_range := has "rangeCheckCode";
     f_type_info := has "typeInfoCode"; f_comments := has "codeComments" |}.
Lemma decode_setup o : decode (String.concat ", " (setup o)) = o.
Proof. destruct o as [[] [] [] [] [] [] []]; vm_compute; reflexivity. Qed.
Lemma split_space a : forall b c d, no_space a = true -> no_space c = true -> (a ++ String " " b = c ++ String " " d)%string -> a = c /\ b = d.
Proof.
  induction a as [|x a IH]; intros b c d A C E.
  - destruct c as [|y c]; cbn in E; injection E; [auto|]. intros _ <-. discriminate C.
  - destruct c as [|y c]; cbn in E; injection E; [intros _ ->; discriminate A|]. intros E' ->. cbn in A, C. apply andb_prop in A, C. destruct (IH b c d) as (-> & ->); tauto.
Qed.
Lemma header_inj t o t' o' : versions_ok t -> versions_ok t' -> header t o = header t' o' -> t_python t = t_python t' /\ t_core t = t_core t' /\ o = o'.
Proof.
  intros (A & B) (A' & B') E. unfold header in E. injection E as E1 E2. apply split_space in E1; [|assumption|assumption]. destruct E1 as (E1 & E3).
  apply (append_cancel "using Zserio core ") in E3. apply append_cancel_r in E3. split; [exact E1|]. split; [exact E3|].
  rewrite <- (decode_setup o), <- (decode_setup o'). rewrite E2. reflexivity.
Qed.
Lemma header_length t o : List.length (header t o) = 2.
Proof. reflexivity. Qed.

(** ** Times *)
Lemma register_times l : forall a b e, fold_left register_time l (a, false) = (b, e) -> if e then b = 0 else a <= b /\ forall x, In x l -> 0 < x <= b.
Proof.
  induction l as [|x l IH]; intros a b e H.
  - cbn in H. injection H as <- <-. split; [lia|]. intros x [].
  - cbn [fold_left register_time] in H. destruct (Nat.ltb_spec a x).
    + apply IH in H. destruct e; [exact H|]. destruct H as (H1 & H2). split; [lia|]. intros y [<- |Y]; [lia|auto].
    + destruct (Nat.eqb_spec x 0) as [-> |].
      * assert (E : fold_left register_time l (0, true) = (0, true)) by (clear; induction l as [|y l IH]; [reflexivity|exact IH]). rewrite E in H. injection H as <- <-. reflexivity.
      * apply IH in H. destruct e; [exact H|]. destruct H as (H1 & H2). split; [lia|]. intros y [<- |Y]; [lia|auto].
Qed.
Lemma source_times l x : source_time l <> 0 -> In x l -> 0 < x <= source_time l.
Proof.
  unfold source_time. destruct (fold_left register_time l (0, false)) as [b e] eqn:E. apply register_times in E. cbn [fst]. intros N I. destruct e; [contradiction|]. apply E. exact I.
Qed.
Lemma source_time_below l n : (forall x, In x l -> 0 < x < n) -> 0 < n -> source_time l < n /\ (l <> [] -> 0 < source_time l).
Proof.
  intros H N. unfold source_time.
  enough (X : forall a, a < n -> let b := fold_left register_time l (a, false) in snd b = false /\ a <= fst b < n /\ (l <> [] -> 0 < fst b)) by (destruct (X 0 N) as (_ & X1 & X2); lia || (split; [lia|exact X2])).
  induction l as [|x l IH]; intros a A; cbn zeta; [cbn; repeat split; try lia; contradiction|]. cbn [fold_left register_time].
  assert (X : 0 < x < n) by (apply H; left; reflexivity). assert (H' : forall x, In x l -> 0 < x < n) by (intros y Y; apply H; right; exact Y).
  destruct (Nat.ltb_spec a x).
  - destruct (IH H' x) as (I1 & I2 & I3); [lia|]. split; [exact I1|]. split; [lia|]. intros _. lia.
  - destruct (Nat.eqb_spec x 0); [lia|]. destruct (IH H' a) as (I1 & I2 & I3); [lia|]. split; [exact I1|]. split; [lia|]. intros _. lia.
Qed.

(** ** What is read depends on the files read *)
Section Reading.
Context (src : option string) (top : list string) (input : string) (f g : string -> option source).
Lemma parse_package_same st path : f path = g path -> parse_package f src top input st path = parse_package g src top input st path.
Proof. intros E. unfold parse_package. rewrite E. reflexivity. Qed.
Lemma parse_package_grows st path st' s : parse_package f src top input st path = Some (st', s) -> registered st' = path :: registered st.
Proof. unfold parse_package. destruct (f path); [|discriminate]. destruct (_ || _ || _); [discriminate|]. intros [= <- <-]. reflexivity. Qed.
Lemma imported_grows fuel : forall st l st', parse_imported f src top input fuel st l = Done st' -> incl (registered st) (registered st').
Proof.
  induction fuel as [|fuel IH]; intros st l st' H; destruct l as [|i l]; cbn [parse_imported] in H; try discriminate H; try (injection H as <-; apply incl_refl).
  destruct (existsb _ _); [exact (IH _ _ _ H)|]. destruct (parse_package _ _ _ _ _ _) as [[st1 s]|] eqn:E; [|discriminate]. apply parse_package_grows in E.
  destruct (parse_imported _ _ _ _ fuel st1 (imports s)) as [st2| |] eqn:E2; try discriminate H. apply IH in E2, H. intros x X. apply H, E2. rewrite E. right. exact X.
Qed.
Lemma imported_same fuel : forall st l st', parse_imported f src top input fuel st l = Done st' -> (forall p, In p (registered st') -> f p = g p) ->
  parse_imported g src top input fuel st l = Done st'.
Proof.
  induction fuel as [|fuel IH]; intros st l st' H A; destruct l as [|i l]; cbn [parse_imported] in *; try discriminate H; try exact H.
  destruct (existsb _ _); [exact (IH _ _ _ H A)|]. destruct (parse_package f _ _ _ _ _) as [[st1 s]|] eqn:E; [|discriminate].
  destruct (parse_imported f _ _ _ fuel st1 (imports s)) as [st2| |] eqn:E2; try discriminate H.
  assert (I1 := imported_grows _ _ _ _ E2). assert (I2 := imported_grows _ _ _ _ H). rewrite <- parse_package_same.
  - rewrite E. rewrite (IH _ _ _ E2); [exact (IH _ _ _ H A)|]. intros p P. apply A, I2. exact P.
  - apply A, I2, I1. rewrite (parse_package_grows _ _ _ _ E). left. reflexivity.
Qed.
Lemma read_same fuel st : read_schema f src top input fuel = Done st -> (forall p, In p (registered st) -> f p = g p) -> read_schema g src top input fuel = Done st.
Proof.
  unfold read_schema. intros H A. destruct (parse_package f _ _ _ _ _) as [[st1 s]|] eqn:E; [|discriminate].
  destruct (parse_imported f _ _ _ fuel st1 (imports s)) as [st2| |] eqn:E2; try discriminate H. destruct (resolved top st2) eqn:R; [|discriminate]. injection H as <-.
  rewrite <- parse_package_same.
  - rewrite E. rewrite (imported_same _ _ _ _ E2 A), R. reflexivity.
  - apply A. apply (imported_grows _ _ _ _ E2). rewrite (parse_package_grows _ _ _ _ E). left. reflexivity.
Qed.
End Reading.

(** ** The files of one run *)
Lemma existsb_seen p seen : existsb (String.eqb p) seen = false -> ~ In p seen.
Proof. intros E I. assert (X : existsb (String.eqb p) seen = true) by (apply existsb_exists; exists p; split; [exact I|apply String.eqb_refl]). congruence. Qed.
Section Process.
Context (ignore : bool) (last : nat) (h : text).
Notation process := (process ignore last h).
Lemma process_made items : forall now outs seen pace now' outs' ok, process now outs seen items pace = (now', outs', ok) -> Forall (fun d => snd d = None) pace ->
  now <= now' /\ forall p ls t, outs' p = Some (ls, t) -> outs p = Some (ls, t) \/ (now <= t <= now' /\ exists body, In (p, body) items /\ ls = h ++ body).
Proof.
  induction items as [|[p body] items IH]; intros now outs seen pace now' outs' ok H C; cbn [ModelUpdate.process] in H.
  - injection H as <- <- <-. split; [lia|]. auto.
  - destruct pace as [|[delay cut] pace]; [injection H as <- <- <-; split; [lia|]; auto|]. inversion C as [|? ? C1 C2]; subst. cbn [snd] in C1. subst cut.
    set (write := negb _ || negb _) in *.
    assert (X : forall q ls t, (if write then update outs p (h ++ body, now + delay) else outs) q = Some (ls, t) -> outs q = Some (ls, t) \/ (t = now + delay /\ q = p /\ ls = h ++ body)).
    { intros q ls t. destruct write; [|auto]. unfold update. destruct (String.eqb_spec p q) as [-> |]; [intros [= <- <-]|]; auto. }
    replace (match write with true | _ => _ end) with
      (if existsb (String.eqb p) seen then (now + delay, if write then update outs p (h ++ body, now + delay) else outs, false)
       else process (now + delay) (if write then update outs p (h ++ body, now + delay) else outs) (p :: seen) items pace) in H by (destruct write; reflexivity).
    destruct (existsb (String.eqb p) seen).
    + injection H as <- <- <-. split; [lia|]. intros q ls t Q. destruct (X q ls t Q) as [Y|(-> & -> & ->)]; [left; exact Y|]. right. split; [lia|]. exists body. split; [left; reflexivity|reflexivity].
    + destruct (IH _ _ _ _ _ _ _ H C2) as (L & M). split; [lia|]. intros q ls t Q. destruct (M q ls t Q) as [Y|(Y & b & I & ->)].
      * destruct (X q ls t Y) as [Z|(-> & -> & ->)]; [left; exact Z|]. right. split; [lia|]. exists body. split; [left; reflexivity|reflexivity].
      * right. split; [lia|]. exists b. split; [right; exact I|reflexivity].
Qed.
Lemma process_all items : forall now outs seen pace now' outs', process now outs seen items pace = (now', outs', true) ->
  now <= now' /\ NoDup (map fst items) /\ (forall p, In p (map fst items) -> ~ In p seen) /\ (forall p, ~ In p (map fst items) -> outs' p = outs p) /\
  forall p body, In (p, body) items ->
    (exists t, outs' p = Some (h ++ body, t) /\ now <= t <= now') \/
    (outs' p = outs p /\ check_timestamps ignore last (outs p) = true /\ check_header h (outs p) = true).
Proof.
  induction items as [|[p body] items IH]; intros now outs seen pace now' outs' H; cbn [ModelUpdate.process] in H.
  - injection H as <- <-. split; [lia|]. split; [constructor|]. split; [intros p []|]. split; [reflexivity|]. intros p body [].
  - destruct pace as [|[delay cut] pace]; [discriminate|]. destruct (negb _ || negb _) eqn:Wr.
    + destruct cut as [k|]; [discriminate|]. destruct (existsb (String.eqb p) seen) eqn:Ex; [discriminate|]. apply existsb_seen in Ex.
      destruct (IH _ _ _ _ _ _ H) as (L & N & D & K & F). assert (Np : ~ In p (map fst items)) by (intros I; apply (D p I); left; reflexivity).
      split; [lia|]. split; [constructor; assumption|]. split; [intros q [<- |Q]; [exact Ex|]; intros S; apply (D q Q); right; exact S|]. split.
      * intros q Q. cbn in Q. rewrite K by tauto. unfold update. destruct (String.eqb_spec p q) as [-> |]; [tauto|reflexivity].
      * intros q b [[= -> ->] |I].
        -- left. exists (now + delay). rewrite (K q Np). unfold update. rewrite String.eqb_refl. split; [reflexivity|lia].
        -- assert (Q : q <> p) by (intros ->; apply Np; apply in_map_iff; exists (p, b); auto). destruct (F q b I) as [(t & E & T)|(E & T)]; [left; exists t; split; [exact E|lia]|right].
           unfold update in E, T. destruct (String.eqb_spec p q); [congruence|]. auto.
    + replace (match cut with Some _ | _ => _ end) with (if existsb (String.eqb p) seen then (now + delay, outs, false) else process (now + delay) outs (p :: seen) items pace) in H by (destruct cut; reflexivity).
      destruct (existsb (String.eqb p) seen) eqn:Ex; [discriminate|]. apply existsb_seen in Ex. apply orb_false_iff in Wr. destruct Wr as (W1 & W2). apply negb_false_iff in W1, W2.
      destruct (IH _ _ _ _ _ _ H) as (L & N & D & K & F). assert (Np : ~ In p (map fst items)) by (intros I; apply (D p I); left; reflexivity).
      split; [lia|]. split; [constructor; assumption|]. split; [intros q [<- |Q]; [exact Ex|]; intros S; apply (D q Q); right; exact S|]. split.
      * intros q Q. cbn in Q. apply K. tauto.
      * intros q b [[= -> ->] |I]; [right; split; [apply K; exact Np|auto]|]. destruct (F q b I) as [(t & E & T)|R]; [left; exists t; split; [exact E|lia]|right; exact R].
Qed.
Lemma process_nothing items : forall now outs seen pace now' outs' ok, process now outs seen items pace = (now', outs', ok) ->
  (forall p, In p (map fst items) -> check_timestamps ignore last (outs p) = true /\ check_header h (outs p) = true) -> outs' = outs.
Proof.
  induction items as [|[p body] items IH]; intros now outs seen pace now' outs' ok H A; cbn [ModelUpdate.process] in H; [injection H as _ <- _; reflexivity|].
  destruct pace as [|[delay cut] pace]; [injection H as _ <- _; reflexivity|]. destruct (A p) as (A1 & A2); [left; reflexivity|]. rewrite A1, A2 in H. cbn [negb orb] in H.
  assert (B : forall q, In q (map fst items) -> check_timestamps ignore last (outs q) = true /\ check_header h (outs q) = true) by (intros q Q; apply A; right; exact Q).
  destruct cut; destruct (existsb (String.eqb p) seen); try (injection H as _ <- _; reflexivity); exact (IH _ _ _ _ _ _ _ H B).
Qed.
Lemma process_kept p items : forall now outs seen pace now' outs' ok, process now outs seen items pace = (now', outs', ok) ->
  check_timestamps ignore last (outs p) = true -> check_header h (outs p) = true -> outs' p = outs p.
Proof.
  induction items as [|[q body] items IH]; intros now outs seen pace now' outs' ok H A B; cbn [ModelUpdate.process] in H; [injection H as _ <- _; reflexivity|].
  destruct pace as [|[delay cut] pace]; [injection H as _ <- _; reflexivity|]. destruct (String.eqb_spec q p) as [-> |N].
  - rewrite A, B in H. cbn [negb orb] in H. destruct cut; destruct (existsb (String.eqb p) seen); try (injection H as _ <- _; reflexivity); exact (IH _ _ _ _ _ _ _ H A B).
  - assert (X : forall a, update outs q a p = outs p) by (intros a; unfold update; destruct (String.eqb_spec q p); [contradiction|reflexivity]).
    destruct (negb _ || negb _); destruct cut; try (injection H as _ <- _; apply X); destruct (existsb (String.eqb q) seen); try (injection H as _ <- _; first [reflexivity|apply X]).
    + rewrite <- (X (h ++ body, now + delay)). apply (IH _ _ _ _ _ _ _ H); rewrite X; assumption.
    + exact (IH _ _ _ _ _ _ _ H A B).
    + exact (IH _ _ _ _ _ _ _ H A B).
Qed.
End Process.

Section Tool.
Context (source_of : text -> option source) (generate : tool -> root -> flags -> list (string * text) -> list (string * text) * bool) (fuel : nat) (in_use : tool -> Prop).
Notation files_read := (files_read source_of fuel).
Notation run := (run source_of generate fuel).
Notation step := (step source_of generate fuel).
Notation after := (after source_of generate fuel).

Lemma files_read_same r a b l : files_read a r = Some l -> (forall p, In p l -> a p = b p) -> files_read b r = Some l /\ with_texts a l = with_texts b l.
Proof.
  unfold ModelUpdate.files_read. intros H A. destruct (read_schema (parsed source_of a) _ _ _ fuel) as [st| |] eqn:E; try discriminate H. injection H as <-.
  rewrite (read_same _ _ _ _ (parsed source_of b) _ _ E).
  - split; [reflexivity|]. apply map_ext_in. intros p P. rewrite (A p P). reflexivity.
  - intros p P. unfold parsed. rewrite (A p); [reflexivity|]. apply in_rev in P. exact P.
Qed.

Definition same_versions (a b : tool) : Prop := t_python a = t_python b /\ t_core a = t_core b.
Definition made (r : root) (s : state) (p : string) (ls : text) (t : nat) : Prop :=
  exists sources tl o l body, versions_ok tl /\ in_use tl /\ files_read sources r = Some l /\ In (p, body) (fst (generate tl r o (with_texts sources l))) /\ ls = header tl o ++ body /\
    (forall q, texts s q = sources q \/ time_of s q = 0 \/ t <= time_of s q) /\
    (s_tool s = tl \/ resource_time 0 (s_class_path s) = 0 \/ t <= resource_time 0 (s_class_path s) \/ ~ same_versions (s_tool s) tl).
Definition inv (r : root) (s : state) : Prop :=
  versions_ok (s_tool s) /\ in_use (s_tool s) /\ forall p ls t, s_outs s p = Some (ls, t) -> t <= s_now s /\ made r s p ls t.

Lemma run_case s c pace s' ok : run s c pace = (s', ok) ->
  s' = s /\ ok = false \/
  exists l now outs all, files_read (texts s) (c_root c) = Some l /\
    let last := last_time (source_time (map (time_of s) l)) (resource_time 0 (s_class_path s)) in
    let items := fst (generate (s_tool s) (c_root c) (c_flags c) (with_texts (texts s) l)) in
    process (c_ignore c) last (header (s_tool s) (c_flags c)) (s_now s) (s_outs s) [] items pace = (now, outs, all) /\ (ok = true -> all = true) /\
    s' = {| s_now := now; s_sources := s_sources s; s_tool := s_tool s; s_class_path := s_class_path s; s_outs := outs |}.
Proof.
  unfold ModelUpdate.run. destruct (files_read (texts s) (c_root c)) as [l|]; [|intros [= <- <-]; left; auto]. right. exists l.
  destruct (generate _ _ _ _) as [items good]. cbn [fst]. destruct (process _ _ _ _ _ _ _ _) as [[now outs] all] eqn:P. injection H as <- <-.
  exists now, outs, all. split; [reflexivity|]. split; [cbn zeta; first [exact P|reflexivity]|]. split; [|reflexivity]. intros E. apply andb_prop in E. tauto.
Qed.

Lemma inv_step r s e : careful in_use r s e -> inv r s -> inv r (step s e).
Proof.
  intros C (V & U & I). destruct e as [d|p t time|p|p|t l|c pace]; cbn [ModelUpdate.step].
  - split; [exact V|]. split; [exact U|]. cbn. intros p ls t E. destruct (I p ls t E) as (T & M). split; [lia|exact M].
  - cbn in C. split; [exact V|]. split; [exact U|]. cbn. intros q ls u E. destruct (I q ls u E) as (T & (src & tl & o & l & body & M1 & M2 & M3 & M4 & M5 & M6 & M7)). split; [exact T|].
    exists src, tl, o, l, body. repeat (split; [assumption|]). split; [|exact M7]. intros x. specialize (M6 x). unfold texts, time_of, update in *. cbn [s_sources]. destruct (String.eqb p x); [|exact M6].
    right. lia.
  - split; [exact V|]. split; [exact U|]. cbn. intros q ls u E. destruct (I q ls u E) as (T & (src & tl & o & l & body & M1 & M2 & M3 & M4 & M5 & M6 & M7)). split; [exact T|].
    exists src, tl, o, l, body. repeat (split; [assumption|]). split; [|exact M7]. intros x. specialize (M6 x). unfold texts, time_of in *. cbn [s_sources]. destruct (String.eqb p x); [|exact M6].
    right. left. reflexivity.
  - split; [exact V|]. split; [exact U|]. cbn. intros q ls u E. destruct (String.eqb p q); [discriminate|]. destruct (I q ls u E) as (T & M). split; [exact T|exact M].
  - destruct C as (Vt & Ut & C). rewrite <- installed_time in C. split; [exact Vt|]. split; [exact Ut|]. cbn. intros q ls u E. destruct (I q ls u E) as (T & (src & tl & o & l' & body & M1 & M2 & M3 & M4 & M5 & M6 & M7)). split; [exact T|].
    exists src, tl, o, l', body. repeat (split; [assumption|]). cbn [s_tool s_class_path]. destruct C as [C|[C|C]]; [right; right; left; lia|right; left; exact C|].
    destruct (string_dec (t_python t) (t_python tl)) as [E1|E1]; [|right; right; right; intros (X & _); contradiction].
    destruct (string_dec (t_core t) (t_core tl)) as [E2|E2]; [|right; right; right; intros (_ & X); contradiction]. left. symmetry. apply C; [exact M2| |]; symmetry; assumption.
  - destruct C as (R & C). destruct (run s c pace) as [s' ok] eqn:E. cbn [fst]. destruct (run_case _ _ _ _ _ E) as [(-> & _)|(l & now & outs & all & F & P & _ & ->)]; [split; [exact V|split; [exact U|exact I]]|].
    destruct (process_made _ _ _ _ _ _ _ _ _ _ _ P C) as (L & M). split; [exact V|]. split; [exact U|]. cbn [s_outs s_now]. intros p ls t O. destruct (M p ls t O) as [Y|(T & body & J & ->)].
    + destruct (I p ls t Y) as (T & Md). split; [lia|exact Md].
    + split; [lia|]. exists (texts s), (s_tool s), (c_flags c), l, body. rewrite R in *. split; [exact V|]. split; [exact U|]. split; [exact F|]. split; [exact J|]. split; [reflexivity|].
      split; [intros q; left; reflexivity|left; reflexivity].
Qed.
Lemma inv_after r l : forall s, carefully source_of generate fuel in_use r s l -> inv r s -> inv r (after s l).
Proof. induction l as [|e l IH]; intros s C I; [exact I|]. destruct C as (C1 & C2). apply IH; [exact C2|]. apply inv_step; assumption. Qed.

Lemma check_header_out h out : check_header h out = true -> exists ls t, out = Some (ls, t) /\ h = firstn (List.length h) ls.
Proof. destruct out as [[ls t]|]; [|discriminate]. cbn. destruct (list_eq_dec _ _ _); [|discriminate]. eauto. Qed.

Lemma skipped r s flags ignore l p : inv r s -> files_read (texts s) r = Some l ->
  check_timestamps ignore (last_time (source_time (map (time_of s) l)) (resource_time 0 (s_class_path s))) (s_outs s p) = true ->
  check_header (header (s_tool s) flags) (s_outs s p) = true ->
  exists t body, s_outs s p = Some (header (s_tool s) flags ++ body, t) /\ In (p, body) (fst (generate (s_tool s) r flags (with_texts (texts s) l))).
Proof.
  intros (V & U & I) F Ct Ch. apply check_header_out in Ch. destruct Ch as (ls & t & E & H). destruct (I p ls t E) as (_ & (src & tl & o & l' & body & M1 & M2 & M3 & M4 & -> & M6 & M7)).
  rewrite E in Ct. unfold check_timestamps, last_time in Ct. destruct ignore; [discriminate|]. cbn [orb] in Ct.
  destruct (Nat.eqb_spec (source_time (map (time_of s) l)) 0) as [|N1]; [discriminate|]. destruct (Nat.eqb_spec (resource_time 0 (s_class_path s)) 0) as [|N2]; [discriminate|]. cbn [orb] in Ct.
  destruct (Nat.eqb_spec (Nat.max (source_time (map (time_of s) l)) (resource_time 0 (s_class_path s))) 0); [discriminate|]. apply Nat.ltb_lt in Ct.
  rewrite header_length in H. cbn [firstn header app] in H. change (header (s_tool s) flags = header tl o) in H. destruct (header_inj _ _ _ _ V M1 H) as (V1 & V2 & <-).
  assert (Et : s_tool s = tl). { destruct M7 as [M7|[M7|[M7|M7]]]; [exact M7|contradiction|lia|]. exfalso. apply M7. split; assumption. } subst tl.
  assert (A : forall q, In q l -> texts s q = src q).
  { intros q Q. assert (T := source_times _ (time_of s q) N1 (in_map (time_of s) _ _ Q)). destruct (M6 q) as [X|[X|X]]; [exact X|lia|lia]. }
  destruct (files_read_same r (texts s) src l F A) as (F' & W). rewrite F' in M3. injection M3 as <-. exists t, body. split; [exact E|]. rewrite W. exact M4.
Qed.
Lemma nodup_body (items : list (string * text)) p a b : NoDup (map fst items) -> In (p, a) items -> In (p, b) items -> a = b.
Proof.
  induction items as [|[q c] items IH]; [intros _ []|]. cbn. intros N A B. inversion N as [|? ? N1 N2]; subst. destruct A as [A|A]; destruct B as [B|B]; auto.
  - congruence.
  - exfalso. apply N1. apply in_map_iff. exists (p, b). split; [cbn; congruence|exact B].
  - exfalso. apply N1. apply in_map_iff. exists (p, a). split; [cbn; congruence|exact A].
Qed.
Theorem fresh r s0 events c pace s' : empty in_use s0 -> carefully source_of generate fuel in_use r s0 events -> c_root c = r -> run (after s0 events) c pace = (s', true) ->
  up_to_date source_of generate fuel s' c.
Proof.
  intros (V & U & O) C R E. assert (I : inv r (after s0 events)) by (apply inv_after; [exact C|]; split; [exact V|]; split; [exact U|]; intros p ls t H; rewrite O in H; discriminate).
  set (s := after s0 events) in *. destruct (run_case _ _ _ _ _ E) as [(_ & X)|(l & now & outs & all & F & P & A & ->)]; [discriminate|]. rewrite (A eq_refl) in P.
  destruct (process_all _ _ _ _ _ _ _ _ _ _ P) as (_ & N & _ & _ & All). intros p ls (l' & body & F' & J & ->). cbn [s_tool s_outs] in *.
  change (texts {| s_now := now; s_sources := s_sources s; s_tool := s_tool s; s_class_path := s_class_path s; s_outs := outs |}) with (texts s) in *. rewrite F in F'. injection F' as <-.
  destruct (All p body J) as [(t & Ho & _)|(Ho & Ct & Ch)]; [eauto|]. rewrite R in *. destruct (skipped r s (c_flags c) (c_ignore c) l p I F Ct Ch) as (t & b & Hb & J').
  rewrite Ho, Hb. exists t. rewrite (nodup_body _ p body b N J J'). reflexivity.
Qed.
Theorem ignored s c pace s' : c_ignore c = true -> run s c pace = (s', true) -> up_to_date source_of generate fuel s' c.
Proof.
  intros Ig E. destruct (run_case _ _ _ _ _ E) as [(_ & X)|(l & now & outs & all & F & P & A & ->)]; [discriminate|]. rewrite (A eq_refl) in P.
  destruct (process_all _ _ _ _ _ _ _ _ _ _ P) as (_ & N & _ & _ & All). intros p ls (l' & body & F' & J & ->). cbn [s_tool s_outs] in *.
  change (texts {| s_now := now; s_sources := s_sources s; s_tool := s_tool s; s_class_path := s_class_path s; s_outs := outs |}) with (texts s) in *. rewrite F in F'. injection F' as <-.
  destruct (All p body J) as [(t & Ho & _)|(_ & Ct & _)]; [eauto|]. unfold check_timestamps in Ct. rewrite Ig in Ct. discriminate.
Qed.

Lemma files_read_ne r a l : files_read a r = Some l -> l <> [].
Proof.
  unfold ModelUpdate.files_read, read_schema. destruct (parse_package _ _ _ _ _ _) as [[st1 x]|] eqn:E; [|discriminate]. apply parse_package_grows in E.
  destruct (parse_imported _ _ _ _ _ _ _) as [st| |] eqn:E2; try discriminate. destruct (resolved _ _); [|discriminate]. intros [= <-] X. apply imported_grows in E2. rewrite E in E2.
  assert (Y := E2 _ (or_introl eq_refl)). rewrite in_rev, X in Y. destruct Y.
Qed.
(** A file that is newer than the sources and the tool and has the right header is left, whatever is in it. *)
Theorem kept s c pace s' ok l p ls t : run s c pace = (s', ok) -> c_ignore c = false -> files_read (texts s) (c_root c) = Some l ->
  s_outs s p = Some (ls, t) -> firstn 2 ls = header (s_tool s) (c_flags c) -> (forall q, In q l -> 0 < time_of s q < t) -> 0 < installed (s_class_path s) < t -> s_outs s' p = Some (ls, t).
Proof.
  intros E Ig F O H T R. rewrite <- installed_time in R. destruct (run_case _ _ _ _ _ E) as [(-> & _)|(l' & now & outs & all & F' & P & _ & ->)]; [exact O|]. rewrite F in F'. injection F' as <-. cbn [s_outs]. rewrite <- O.
  apply (process_kept _ _ _ p _ _ _ _ _ _ _ _ P); rewrite O.
  - unfold check_timestamps. rewrite Ig. cbn [orb]. assert (B : forall x, In x (map (time_of s) l) -> 0 < x < t) by (intros x X; apply in_map_iff in X; destruct X as (y & <- & Y); exact (T y Y)).
    destruct (source_time_below _ _ B) as (S1 & S2); [lia|]. assert (S3 : 0 < source_time (map (time_of s) l)). { apply S2. intros X. apply map_eq_nil in X. exact (files_read_ne _ _ _ F X). }
    unfold last_time. destruct (Nat.eqb_spec (source_time (map (time_of s) l)) 0); [lia|]. destruct (Nat.eqb_spec (resource_time 0 (s_class_path s)) 0); [lia|]. cbn [orb].
    destruct (Nat.eqb_spec (Nat.max (source_time (map (time_of s) l)) (resource_time 0 (s_class_path s))) 0); [lia|]. apply Nat.ltb_lt. lia.
  - cbn [check_header]. rewrite header_length. rewrite H. destruct (list_eq_dec string_dec _ _); [reflexivity|contradiction].
Qed.
(** A second run writes nothing. *)
Theorem unchanged s c pace pace' s1 s2 ok : settled source_of fuel s c -> c_ignore c = false -> run s c pace = (s1, true) -> run s1 c pace' = (s2, ok) -> s_outs s2 = s_outs s1.
Proof.
  intros (R & T) Ig E1 E2. rewrite <- installed_time in R. destruct R as (R1 & R2). destruct (run_case _ _ _ _ _ E1) as [(_ & X)|(l & now & outs & all & F & P & A & ->)]; [discriminate|]. rewrite (A eq_refl) in P.
  destruct (process_all _ _ _ _ _ _ _ _ _ _ P) as (_ & N & _ & _ & All). destruct (run_case _ _ _ _ _ E2) as [(-> & _)|(l' & now' & outs' & all' & F' & P' & _ & ->)]; [reflexivity|].
  set (s1 := {| s_now := now; s_sources := s_sources s; s_tool := s_tool s; s_class_path := s_class_path s; s_outs := outs |}) in *.
  change (texts s1) with (texts s) in *. change (time_of s1) with (time_of s) in *. change (s_class_path s1) with (s_class_path s) in *. change (s_tool s1) with (s_tool s) in *.
  rewrite F in F'. injection F' as <-. cbn [s_outs]. apply (process_nothing _ _ _ _ _ _ _ _ _ _ _ P'). intros p Q. apply in_map_iff in Q. destruct Q as ((q & body) & <- & J). cbn [fst].
  change (s_outs s1) with outs. destruct (All q body J) as [(t & Ho & Tt)|(Ho & Ct & Ch)]; [|rewrite Ho; split; assumption]. rewrite Ho. split.
  - unfold check_timestamps. rewrite Ig. cbn [orb]. assert (B : forall x, In x (map (time_of s) l) -> 0 < x < s_now s) by (intros x X; apply in_map_iff in X; destruct X as (y & <- & Y); exact (T l y F Y)).
    destruct (source_time_below _ _ B) as (S1 & S2); [lia|]. assert (S3 : 0 < source_time (map (time_of s) l)). { apply S2. intros X. apply map_eq_nil in X. exact (files_read_ne _ _ _ F X). }
    unfold last_time. destruct (Nat.eqb_spec (source_time (map (time_of s) l)) 0); [lia|]. destruct (Nat.eqb_spec (resource_time 0 (s_class_path s)) 0); [lia|]. cbn [orb].
    destruct (Nat.eqb_spec (Nat.max (source_time (map (time_of s) l)) (resource_time 0 (s_class_path s))) 0); [lia|]. apply Nat.ltb_lt. lia.
  - cbn [check_header]. rewrite firstn_app, Nat.sub_diag, firstn_all, firstn_O, app_nil_r. destruct (list_eq_dec string_dec _ _); [reflexivity|contradiction].
Qed.
End Tool.

Lemma needed_same files files' src input ext p : (forall q, files q = files' q) -> needed files src input ext p -> needed files' src input ext p.
Proof. intros E N. induction N as [|path f i N IH F I]; [constructor|]. eapply needed_import; [exact IH| |exact I]. rewrite <- E. exact F. Qed.
Lemma files_needed source_of fuel (s : state) r ext l : identifiers_only (fun p => match s_sources s p with Some (t, _) => source_of t | None => None end) -> extension_of (r_input r) ext ->
  files_read source_of fuel (texts s) r = Some l ->
  NoDup l /\ forall p, In p l <-> needed (fun p => match s_sources s p with Some (t, _) => source_of t | None => None end) (r_src r) (r_input r) ext p.
Proof.
  intros ID EX. unfold files_read. destruct (read_schema _ _ _ _ _) as [st| |] eqn:E; try discriminate. intros [= <-].
  assert (SAME : forall q, parsed source_of (texts s) q = match s_sources s q with Some (t, _) => source_of t | None => None end).
  { intros q. unfold parsed, texts. destruct (s_sources s q) as [[t time]|]; reflexivity. }
  destruct (packages_read (parsed source_of (texts s)) (r_src r) (r_top r) (r_input r) ext fuel st) as (N & M & _); [|exact EX|exact E|].
  { intros path f F. apply (ID path). rewrite <- SAME. exact F. }
  split; [apply NoDup_rev; exact N|]. intros p. rewrite <- in_rev, M.
  split; apply needed_same; [exact SAME|]. intros q. symmetry. apply SAME.
Qed.
