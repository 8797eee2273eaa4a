(** The builder and the whole decoder, for any components: C38 to C40. *)
From Coq Require Import NArith ZArith List Lia Bool Arith.
From Verif.Model Require Import Pipeline.
From Verif.Proofs Require Import BaseP DecodeP.
From Verif.Props Require Import ReportProps.
Import ListNotations.

(** *** C38: the builder *)

(** a call to one of the three setters *)
Inductive call (IMG PREPD RESULT : Type) :=
| SetPrepare (f : IMG -> res PREPD)
| SetDetect (f : PREPD -> res (list qrloc))
| SetQR (ex : PREPD -> qrloc -> res qrdata) (dc : res qrdata -> res RESULT).
Arguments SetPrepare {IMG PREPD RESULT} f.
Arguments SetDetect {IMG PREPD RESULT} f.
Arguments SetQR {IMG PREPD RESULT} ex dc.

Section Builder.
Context {IMG PREPD RESULT : Type}.
Notation call' := (call IMG PREPD RESULT).

Inductive role := RPrepare | RDetect | RQR.
Definition role_of (c : call') : role :=
  match c with SetPrepare _ => RPrepare | SetDetect _ => RDetect | SetQR _ _ => RQR end.

(** [c] is the last call for its role *)
Definition last_call (calls : list call') (c : call') : Prop :=
  exists before after, calls = before ++ c :: after /\ Forall (fun c' => role_of c' <> role_of c) after.

(** some call is for the role *)
Definition given (calls : list call') (r : role) : Prop := Exists (fun c => role_of c = r) calls.

Definition perform (b : builder IMG PREPD RESULT) (c : call') : builder IMG PREPD RESULT :=
  match c with
  | SetPrepare f => builder_prepare b f
  | SetDetect f => builder_detect b f
  | SetQR ex dc => builder_qr b ex dc
  end.
Definition perform_all (b : builder IMG PREPD RESULT) (calls : list call') := fold_left perform calls b.

Definition last_some {A} (calls : list call') (f : call' -> option A) (o : option A) : option A :=
  fold_left (fun o c => match f c with Some a => Some a | None => o end) calls o.

Definition pick_prepare (c : call') := match c with SetPrepare f => Some f | _ => None end.
Definition pick_detect (c : call') := match c with SetDetect f => Some f | _ => None end.
Definition pick_qr (c : call') := match c with SetQR ex dc => Some (ex, dc) | _ => None end.

Lemma perform_all_fields calls b :
  b_prepare (perform_all b calls) = last_some calls pick_prepare (b_prepare b) /\
  b_detect (perform_all b calls) = last_some calls pick_detect (b_detect b) /\
  b_qr (perform_all b calls) = last_some calls pick_qr (b_qr b).
Proof.
  revert b. induction calls as [|c calls IH]; intros b; [auto|].
  unfold perform_all, last_some in *. cbn [fold_left]. destruct (IH (perform b c)) as (A & B & C).
  rewrite A, B, C. now destruct c.
Qed.

Lemma last_some_snoc {A} calls c (f : call' -> option A) o :
  last_some (calls ++ [c]) f o = match f c with Some a => Some a | None => last_some calls f o end.
Proof. unfold last_some. now rewrite fold_left_app. Qed.

Lemma last_call_snoc calls c c' : last_call (calls ++ [c]) c' <->
  c = c' \/ (role_of c <> role_of c' /\ last_call calls c').
Proof.
  split.
  - intros (b & a & E & HA). destruct a as [|x a] using rev_ind.
    + apply app_inj_tail in E. left. apply E.
    + clear IHa. rewrite app_comm_cons, app_assoc in E. apply app_inj_tail in E. destruct E as [-> ->].
      apply Forall_app in HA. destruct HA as [HA HX]. right. split; [now inversion HX|now exists b, a].
  - intros [->|[HN (b & a & -> & HA)]]; [now exists calls, []|].
    exists b, (a ++ [c]). rewrite app_comm_cons, app_assoc. split; [reflexivity|]. apply Forall_app. split; auto.
Qed.

Lemma last_prepare calls f : last_some calls pick_prepare None = Some f <-> last_call calls (SetPrepare f).
Proof.
  induction calls as [|c calls IH] using rev_ind.
  - split; [discriminate|]. intros (b & a & E & _). now destruct b.
  - rewrite last_some_snoc, last_call_snoc, <- IH. destruct c; cbn [pick_prepare role_of];
      first [ split; [intros [= ->]; now left|intros [[= ->]|[HN _]]; [reflexivity|now contradiction HN]]
            | split; [intros E; right; split; [discriminate|exact E]|intros [E|[_ E]]; [discriminate|exact E]] ].
Qed.

Lemma last_detect calls f : last_some calls pick_detect None = Some f <-> last_call calls (SetDetect f).
Proof.
  induction calls as [|c calls IH] using rev_ind.
  - split; [discriminate|]. intros (b & a & E & _). now destruct b.
  - rewrite last_some_snoc, last_call_snoc, <- IH. destruct c; cbn [pick_detect role_of];
      first [ split; [intros [= ->]; now left|intros [[= ->]|[HN _]]; [reflexivity|now contradiction HN]]
            | split; [intros E; right; split; [discriminate|exact E]|intros [E|[_ E]]; [discriminate|exact E]] ].
Qed.

Lemma last_qr calls ex dc : last_some calls pick_qr None = Some (ex, dc) <-> last_call calls (SetQR ex dc).
Proof.
  induction calls as [|c calls IH] using rev_ind.
  - split; [discriminate|]. intros (b & a & E & _). now destruct b.
  - rewrite last_some_snoc, last_call_snoc, <- IH. destruct c; cbn [pick_qr role_of];
      first [ split; [intros [= -> ->]; now left|intros [[= -> ->]|[HN _]]; [reflexivity|now contradiction HN]]
            | split; [intros E; right; split; [discriminate|exact E]|intros [E|[_ E]]; [discriminate|exact E]] ].
Qed.

Lemma given_iff {A} calls r (f : call' -> option A) : (forall c, f c <> None <-> role_of c = r) ->
  last_some calls f None <> None <-> given calls r.
Proof.
  intros HF. induction calls as [|c calls IH] using rev_ind.
  - split; [intros H; now contradiction H|intros H; inversion H].
  - rewrite last_some_snoc. unfold given. rewrite Exists_app. fold (given calls r). rewrite <- IH.
    specialize (HF c). destruct (f c) as [a|].
    + split; [|discriminate]. intros _. right. constructor. apply HF. discriminate.
    + split; [auto|]. intros [H|H]; [exact H|]. apply Exists_cons in H. destruct H as [H|H]; [|inversion H].
      now apply HF in H.
Qed.

(** the decoder built has exactly the components given last *)
Theorem C38_last_wins calls d :
  build (perform_all builder_new calls) = Ok d <->
  last_call calls (SetPrepare (d_prepare d)) /\ last_call calls (SetDetect (d_detect d)) /\
  last_call calls (SetQR (d_extract d) (d_decode d)).
Proof.
  destruct (perform_all_fields calls builder_new) as (E1 & E2 & E3). cbn [builder_new b_prepare b_detect b_qr] in *.
  rewrite <- last_prepare, <- last_detect, <- last_qr. unfold build. rewrite E1, E2, E3.
  destruct (last_some calls pick_prepare None) as [f|]; [|split; [discriminate|intros (X & _); discriminate]].
  destruct (last_some calls pick_detect None) as [g|]; [|split; [discriminate|intros (_ & X & _); discriminate]].
  destruct (last_some calls pick_qr None) as [[ex dc]|]; [|split; [discriminate|intros (_ & _ & X); discriminate]].
  cbn [unwrap bind]. split; [intros [= <-]; auto|]. intros (A & B & C). destruct d as [p de e c].
  cbn [d_prepare d_detect d_extract d_decode] in *. congruence.
Qed.

(** building aborts exactly when a component is missing *)
Theorem C38_missing calls :
  (exists p, build (perform_all builder_new calls) = Panic p) <->
  ~ (given calls RPrepare /\ given calls RDetect /\ given calls RQR).
Proof.
  destruct (perform_all_fields calls builder_new) as (E1 & E2 & E3). cbn [builder_new b_prepare b_detect b_qr] in *.
  rewrite <- (given_iff calls RPrepare pick_prepare), <- (given_iff calls RDetect pick_detect),
    <- (given_iff calls RQR pick_qr) by (intros []; split; (reflexivity || discriminate || (intros H; now contradiction H))).
  unfold build. rewrite E1, E2, E3.
  destruct (last_some calls pick_prepare None) as [f|]; [|split; [tauto|eauto]].
  destruct (last_some calls pick_detect None) as [g|]; [|split; [tauto|eauto]].
  destruct (last_some calls pick_qr None) as [[ex dc]|]; [|split; [tauto|cbn; eauto]].
  cbn [unwrap bind]. split; [intros (p & E); discriminate|]. intros H. contradiction H. repeat split; discriminate.
Qed.

(** build has no other outcome *)
Theorem C38_no_error calls e : build (perform_all builder_new calls) <> Err e.
Proof.
  unfold build. destruct (b_prepare _); [|discriminate]. destruct (b_detect _); [|discriminate].
  destruct (b_qr _) as [[ex dc]|]; discriminate.
Qed.

Lemma perform_all_app b l1 l2 : perform_all b (l1 ++ l2) = perform_all (perform_all b l1) l2.
Proof. apply fold_left_app. Qed.
End Builder.

(** the components of the default builders, as calls *)
Definition default_calls {D RESULT : Type} (to_gray : D -> gray) (dc : res qrdata -> res RESULT)
  : list (call D gray RESULT) :=
  [SetPrepare (fun d => prepare default_prepare (to_gray d)); SetDetect detect; SetQR extract dc].

Lemma default_calls_build {D RESULT : Type} (to_gray : D -> gray) (dc : res qrdata -> res RESULT) calls :
  exists d, build (perform_all builder_new (default_calls to_gray dc ++ calls)) = Ok d.
Proof.
  destruct (build (perform_all builder_new (default_calls to_gray dc ++ calls))) as [d|e|p] eqn:EB; [eauto| |].
  - now apply C38_no_error in EB.
  - exfalso. destruct (proj1 (C38_missing _) (ex_intro _ p EB)).
    unfold given. rewrite !Exists_app. repeat split; left; [|apply Exists_cons_tl|apply Exists_cons_tl, Exists_cons_tl];
      now constructor.
Qed.

(** the default builders may be customised at will: they never panic, and what is not
    replaced stays as it was *)
Theorem C38_default {D : Type} (to_gray : D -> gray) calls :
  (exists d, build (perform_all (default_builder to_gray) calls) = Ok d /\
     last_call (default_calls to_gray qr_decode ++ calls) (SetPrepare (d_prepare d)) /\
     last_call (default_calls to_gray qr_decode ++ calls) (SetDetect (d_detect d)) /\
     last_call (default_calls to_gray qr_decode ++ calls) (SetQR (d_extract d) (d_decode d))).
Proof.
  destruct (default_calls_build to_gray qr_decode calls) as [d E]. exists d.
  split; [|now apply C38_last_wins]. rewrite perform_all_app in E. exact E.
Qed.

Theorem C38_default_with_info {D : Type} (to_gray : D -> gray) calls :
  (exists d, build (perform_all (default_builder_with_info to_gray) calls) = Ok d /\
     last_call (default_calls to_gray qr_decode_with_info ++ calls) (SetPrepare (d_prepare d)) /\
     last_call (default_calls to_gray qr_decode_with_info ++ calls) (SetDetect (d_detect d)) /\
     last_call (default_calls to_gray qr_decode_with_info ++ calls) (SetQR (d_extract d) (d_decode d))).
Proof.
  destruct (default_calls_build to_gray qr_decode_with_info calls) as [d E]. exists d.
  split; [|now apply C38_last_wins]. rewrite perform_all_app in E. exact E.
Qed.

(** prepare set twice, the other roles once: the second one is used *)
Example C38_example :
  let f (n : nat) (_ : unit) := Ok n in let g (_ : nat) := Ok [] in
  let ex (_ : nat) (_ : qrloc) := Err EFormatCorrupted in let dc (_ : res qrdata) := Ok true in
  build (perform_all builder_new [SetPrepare (f 1%nat); SetQR ex dc; SetDetect g; SetPrepare (f 2%nat)])
    = Ok (mkDecoder (f 2%nat) g ex dc) /\
  build (perform_all builder_new [SetPrepare (f 1%nat); SetQR ex dc; SetPrepare (f 2%nat)]) = Panic PMissing.
Proof. split; reflexivity. Qed.

(** *** C39: one result for each location *)
Section Results.
Context {IMG PREPD RESULT : Type}.
Context (d : decoder IMG PREPD RESULT).

(** what a single code gives: the extraction result, error or not, goes to the decoding *)
Definition result_for (prepared : PREPD) (loc : qrloc) (r : entry RESULT) : Prop :=
  (forall p, d_extract d prepared loc <> Panic p) /\
  d_decode d (d_extract d prepared loc) = match r with inl t => Ok t | inr e => Err e end.

(** the code aborts: in the extraction or in the decoding of what was extracted *)
Definition aborts_at (prepared : PREPD) (loc : qrloc) (p : panic) : Prop :=
  d_extract d prepared loc = Panic p \/
  ((forall p', d_extract d prepared loc <> Panic p') /\ d_decode d (d_extract d prepared loc) = Panic p).

Lemma decode_one_ok prepared loc r : decode_one d prepared loc = Ok r <-> result_for prepared loc r.
Proof.
  unfold decode_one, result_for. destruct (d_extract d prepared loc) as [x|x|x].
  - destruct (d_decode d _) as [t|e|p]; destruct r; split; intros E; try (destruct E; discriminate);
      try discriminate; try (injection E as ->; split; [discriminate|reflexivity]); now destruct E as [_ [= ->]].
  - destruct (d_decode d _) as [t|e|p]; destruct r; split; intros E; try (destruct E; discriminate);
      try discriminate; try (injection E as ->; split; [discriminate|reflexivity]); now destruct E as [_ [= ->]].
  - split; [discriminate|]. intros [E _]. now contradiction (E x).
Qed.

Lemma decode_one_panic prepared loc p : decode_one d prepared loc = Panic p <-> aborts_at prepared loc p.
Proof.
  unfold decode_one, aborts_at. destruct (d_extract d prepared loc) as [x|x|x].
  - destruct (d_decode d _) as [t|e|p']; split; intros E; try discriminate; try (destruct E as [E|[_ E]]; discriminate).
    + right. injection E as ->. split; [discriminate|reflexivity].
    + destruct E as [E|[_ E]]; [discriminate|congruence].
  - destruct (d_decode d _) as [t|e|p']; split; intros E; try discriminate; try (destruct E as [E|[_ E]]; discriminate).
    + right. injection E as ->. split; [discriminate|reflexivity].
    + destruct E as [E|[_ E]]; [discriminate|congruence].
  - split; [intros [= ->]; auto|]. intros [[= ->]|[E _]]; [reflexivity|]. now contradiction (E x).
Qed.

Lemma decode_one_no_err prepared loc e : decode_one d prepared loc <> Err e.
Proof. unfold decode_one. destruct (d_extract d prepared loc); [destruct (d_decode d _)|destruct (d_decode d _)|]; discriminate. Qed.

Let body prepared := (fun all_decoded location =>
  r <- decode_one d prepared location ;; Ok (all_decoded ++ [r])).

Lemma body_ok prepared locs acc rs : foldM (body prepared) locs acc = Ok rs <->
  exists new, rs = acc ++ new /\ Forall2 (result_for prepared) locs new.
Proof.
  revert acc. induction locs as [|loc locs IH]; intros acc; cbn [foldM].
  - split; [intros [= ->]; exists []; now rewrite app_nil_r|]. intros (new & -> & H). inversion H. now rewrite app_nil_r.
  - unfold body at 1. destruct (decode_one d prepared loc) as [r|e|p] eqn:E; cbn [bind].
    + rewrite IH. apply decode_one_ok in E. split.
      * intros (new & -> & H). exists (r :: new). rewrite <- app_assoc. split; [reflexivity|now constructor].
      * intros (new & -> & H). inversion H as [|? r' ? new' Hr Hn]; subst. exists new'. rewrite <- app_assoc.
        split; [|exact Hn]. enough (r = r') by (now subst). destruct E as [_ E], Hr as [_ E'].
        rewrite E in E'. destruct r, r'; congruence.
    + now apply decode_one_no_err in E.
    + split; [discriminate|]. intros (new & _ & H). inversion H as [|? r ? ? Hr]; subst.
      apply decode_one_ok in Hr. congruence.
Qed.

Lemma body_panic prepared locs acc p : foldM (body prepared) locs acc = Panic p <->
  exists before loc after, locs = before ++ loc :: after /\ aborts_at prepared loc p /\
    Forall (fun l => exists r, result_for prepared l r) before.
Proof.
  revert acc. induction locs as [|loc locs IH]; intros acc; cbn [foldM].
  - split; [discriminate|]. intros (b & l & a & E & _). now destruct b.
  - unfold body at 1. destruct (decode_one d prepared loc) as [r|e|p'] eqn:E; cbn [bind].
    + rewrite IH. split.
      * intros (b & l & a & -> & H & HB). exists (loc :: b), l, a. split; [reflexivity|]. split; [exact H|].
        constructor; [exists r; now apply decode_one_ok|exact HB].
      * intros ([|l' b] & l & a & EL & H & HB).
        -- injection EL as <- <-. apply decode_one_panic in H. congruence.
        -- injection EL as <- ->. exists b, l, a. inversion HB. auto.
    + now apply decode_one_no_err in E.
    + split.
      * intros [= ->]. exists [], loc, locs. split; [reflexivity|]. split; [now apply decode_one_panic|constructor].
      * intros ([|l' b] & l & a & EL & H & HB).
        -- injection EL as <- <-. apply decode_one_panic in H. congruence.
        -- injection EL as <- ->. inversion HB as [|? ? [r Hr] _]; subst. apply decode_one_ok in Hr. congruence.
Qed.

Lemma decode_unfold source : decode d source =
  bind (d_prepare d source) (fun prepared => bind (d_detect d prepared) (fun locs => foldM (body prepared) locs [])).
Proof.
  unfold decode. destruct (d_prepare d source) as [prepared| |]; cbn [bind]; try reflexivity.
  destruct (d_detect d prepared) as [[|l locs]| |]; reflexivity.
Qed.

(** the results are those of the locations, one each and in their order: nothing but the
    prepared image and the location enters [result_for] *)
Theorem C39_one_each source rs :
  decode d source = Ok rs <->
  exists prepared locs, d_prepare d source = Ok prepared /\ d_detect d prepared = Ok locs /\
    Forall2 (result_for prepared) locs rs.
Proof.
  rewrite decode_unfold. split.
  - intros E. apply bind_ok in E. destruct E as (prepared & E1 & E). apply bind_ok in E.
    destruct E as (locs & E2 & E). apply body_ok in E. destruct E as (new & -> & H). eauto.
  - intros (prepared & locs & -> & E & H). cbn [bind]. rewrite E. cbn [bind]. apply body_ok. now exists rs.
Qed.

(** no location, no result: extraction and decoding are not run *)
Theorem C39_none source prepared :
  d_prepare d source = Ok prepared -> d_detect d prepared = Ok [] -> decode d source = Ok [].
Proof. intros E1 E2. apply C39_one_each. exists prepared, []. auto. Qed.

(** the decoder aborts only where a component does, and errors are confined to the
    vector when preparing and detecting give none (their Rust types rule errors out) *)
Theorem C39_aborts source p :
  decode d source = Panic p <->
  d_prepare d source = Panic p \/
  exists prepared, d_prepare d source = Ok prepared /\
    (d_detect d prepared = Panic p \/
     exists before loc after, d_detect d prepared = Ok (before ++ loc :: after) /\ aborts_at prepared loc p /\
       Forall (fun l => exists r, result_for prepared l r) before).
Proof.
  rewrite decode_unfold. destruct (d_prepare d source) as [prepared|e|p'] eqn:E1; cbn [bind].
  - destruct (d_detect d prepared) as [locs|e|p'] eqn:E2; cbn [bind].
    + rewrite body_panic. split.
      * intros (b & l & a & -> & H). right. exists prepared. split; [reflexivity|]. right. rewrite E2. eauto.
      * intros [E|(x & [= <-] & [E|(b & l & a & E & H)])]; try congruence.
        rewrite E2 in E. injection E as ->. eauto.
    + split; [discriminate|]. intros [E|(x & [= <-] & [E|(b & l & a & E & H)])]; congruence.
    + split; [intros [= ->]; eauto|]. intros [E|(x & [= <-] & [E|(b & l & a & E & H)])]; congruence.
  - split; [discriminate|]. intros [E|(x & E & _)]; discriminate.
  - split; [intros [= ->]; auto|]. intros [[= ->]|(x & E & _)]; [reflexivity|discriminate].
Qed.

Theorem C39_no_error source e :
  (forall s e, d_prepare d s <> Err e) -> (forall s e, d_detect d s <> Err e) -> decode d source <> Err e.
Proof.
  intros H1 H2. rewrite decode_unfold. destruct (d_prepare d source) as [prepared| |] eqn:E1; cbn [bind];
    [|now apply H1 in E1|discriminate].
  destruct (d_detect d prepared) as [locs| |] eqn:E2; cbn [bind]; [|now apply H2 in E2|discriminate].
  clear E2. generalize (@nil (entry RESULT)) as acc. induction locs as [|loc locs IH]; intros acc; [discriminate|].
  cbn [foldM]. unfold body at 1. destruct (decode_one d prepared loc) eqn:E; cbn [bind]; [apply IH| |discriminate].
  now apply decode_one_no_err in E.
Qed.
End Results.

(** three codes, of which the second cannot be extracted *)
Example C39_example :
  let loc v := mkQRLoc (Pt (of_Z 0) (of_Z 0)) (Pt (of_Z 0) (of_Z 0)) (Pt (of_Z 0) (of_Z 0)) (of_Z 1) v in
  let d := mkDecoder (fun n : nat => Ok n) (fun _ => Ok [loc 1; loc 2; loc 3]%Z)
             (fun n l => if Z.eqb (version l) 2 then Err ENoAlignmentPattern else Ok (mkQRData [] (version l) 0))
             (fun x => bind x (fun q => Ok (qversion q))) in
  decode d 5%nat = Ok [inl 1%Z; inr ENoAlignmentPattern; inl 3%Z].
Proof. reflexivity. Qed.

(** *** C40: the two default decoders *)
Definition forget_info (r : entry (list N * qrinfo)) : entry (list N) :=
  match r with inl (t, _) => inl t | inr e => inr e end.

Lemma default_result {D : Type} (to_gray : D -> gray) d i prepared loc r :
  default_decoder to_gray = Ok d -> default_decoder_with_info to_gray = Ok i ->
  (result_for d prepared loc r <-> exists r', r = forget_info r' /\ result_for i prepared loc r').
Proof.
  intros [= <-] [= <-]. unfold result_for. cbn [d_extract d_decode].
  destruct (C34_agree (extract prepared loc)) as (A & B & _). destruct r as [t|e].
  - rewrite A. split.
    + intros (HP & info & E). exists (inl (t, info)). auto.
    + intros ([(t', info)|e] & [= ->] & HP & E). eauto.
  - rewrite B. split.
    + intros (HP & E). exists (inr e). auto.
    + intros ([(t', info)|e'] & E' & HP & E); [discriminate|]. injection E' as ->. auto.
Qed.

(** the same texts and errors in the same order *)
Theorem C40_agree {D : Type} (to_gray : D -> gray) d i source :
  default_decoder to_gray = Ok d -> default_decoder_with_info to_gray = Ok i ->
  (forall rs, decode d source = Ok rs <-> exists rs', rs = map forget_info rs' /\ decode i source = Ok rs') /\
  (forall p, decode d source = Panic p <-> decode i source = Panic p).
Proof.
  intros HD HI. pose proof (default_result to_gray d i) as HR.
  split.
  - intros rs. rewrite C39_one_each. split.
    + intros (prepared & locs & E1 & E2 & H).
      assert (X : exists rs', rs = map forget_info rs' /\ Forall2 (result_for i prepared) locs rs').
      { clear E2. induction H as [|l r locs rs Hr H IH]; [exists []; auto|].
        apply (HR prepared l r HD HI) in Hr. destruct Hr as (r' & -> & Hr), IH as (rs' & -> & IH).
        exists (r' :: rs'). auto. }
      destruct X as (rs' & -> & X). exists rs'. split; [reflexivity|]. apply C39_one_each.
      exists prepared, locs. injection HD as <-. injection HI as <-. auto.
    + intros (rs' & -> & E). apply C39_one_each in E. destruct E as (prepared & locs & E1 & E2 & H).
      exists prepared, locs. split; [injection HD as <-; injection HI as <-; auto|].
      split; [injection HD as <-; injection HI as <-; auto|]. clear E2.
      induction H as [|l r locs rs Hr H IH]; [constructor|]. constructor; [|exact IH].
      apply (HR prepared l _ HD HI). eauto.
  - intros p. rewrite !C39_aborts.
    assert (HA : forall prepared loc, aborts_at d prepared loc p <-> aborts_at i prepared loc p).
    { intros prepared loc. injection HD as <-. injection HI as <-. unfold aborts_at. cbn [d_extract d_decode].
      destruct (C34_agree (extract prepared loc)) as (_ & _ & C). now rewrite C. }
    assert (HB : forall prepared l, (exists r, result_for d prepared l r) <-> (exists r, result_for i prepared l r)).
    { intros prepared l. split.
      - intros (r & H). apply (HR prepared l r HD HI) in H. destruct H as (r' & _ & H). eauto.
      - intros (r & H). exists (forget_info r). apply (HR prepared l _ HD HI). eauto. }
    assert (HF : forall prepared b, Forall (fun l => exists r, result_for d prepared l r) b <->
                                    Forall (fun l => exists r, result_for i prepared l r) b).
    { intros prepared b. split; intros H; (eapply Forall_impl; [|exact H]); intros l; apply HB. }
    assert (E1 : d_prepare i source = d_prepare d source) by (injection HD as <-; injection HI as <-; reflexivity).
    assert (E2 : forall x, d_detect i x = d_detect d x) by (injection HD as <-; injection HI as <-; reflexivity).
    rewrite E1. split; (intros [H|(x & Hx & H)]; [now left|right]); exists x; (split; [exact Hx|]).
    + rewrite E2. destruct H as [H|(b & l & a & H & Ha & Hb)]; [now left|right].
      exists b, l, a. rewrite <- HA, <- HF. auto.
    + rewrite E2 in H. destruct H as [H|(b & l & a & H & Ha & Hb)]; [now left|right].
      exists b, l, a. rewrite HA, HF. auto.
Qed.

Example C40_example : exists d i,
  default_decoder (fun g : gray => g) = Ok d /\ default_decoder_with_info (fun g : gray => g) = Ok i /\
  decode d (Gray 6 5 (repeat 200%N 30)) = Ok [] /\ decode i (Gray 6 5 (repeat 200%N 30)) = Ok [].
Proof. eexists. eexists. split; [reflexivity|]. split; [reflexivity|]. split; vm_compute; reflexivity. Qed.
