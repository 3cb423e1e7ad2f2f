(** PropText: property C64 (the saved description is read as the standards say) *)
From Verif Require Import Base Utf8 ModelTorrent ModelWriter ModelCache SpecTorrent SpecWriter SpecCache SpecText ProofText.

(** C64: bytes count as text exactly if they are the UTF-8 form of some characters, and the number of
    characters is counted right. *)
Theorem C64_text : forall l, utf8_valid l = true <-> exists ns, text_of ns l.
Proof. exact c64_text. Qed.
Print Assumptions C64_text.
Theorem C64_characters : forall ns l, text_of ns l -> chars_count l = lenN ns.
Proof. exact c64_chars. Qed.
Print Assumptions C64_characters.

(** C64: a saved file is accepted, and as the description [i], exactly if it is UTF-8 text and JSON that
    describes [i]; ... *)
Theorem C64_accepted : forall d l i, from_file d l = Ret (Ok i) <->
  exists c, d l = Some (NFile c) /\ (exists ns, text_of ns c) /\ describes_torrent c i.
Proof. exact c64_file. Qed.
Print Assumptions C64_accepted.

(** C64: ... any other text aborts, and nothing else does. *)
Theorem C64_aborts : forall d l, from_file d l = Panic <->
  exists c, d l = Some (NFile c) /\ (exists ns, text_of ns c) /\ (forall i, ~ describes_torrent c i).
Proof. exact c64_abort. Qed.
Print Assumptions C64_aborts.

(** C64: no text describes two torrents. *)
Theorem C64_unambiguous : forall t i j, describes_torrent t i -> describes_torrent t j -> i = j.
Proof. exact c64_one. Qed.
Print Assumptions C64_unambiguous.

(** C64: what the program saves is such a text, so any JSON reader understands it. *)
Theorem C64_saved : forall accept d l i d', rust_info i -> save accept d l i = Ret (Ok tt, d') ->
  exists c, d' l = Some (NFile c) /\ (exists ns, text_of ns c) /\ describes_torrent c i.
Proof. exact c64_saved. Qed.
Print Assumptions C64_saved.

(** A file somebody edited: other field order, spaces, an unknown field with everything in it, escapes,
    one file entry as an array and one as an object. *)
Definition edited : bytes :=
  s2b "{ ""pieces"":[0 ,255], ""other"":{""a"":[-1.50e+3,true,""\ud800""],""a"":{}}, ""name"":""\u00e9\/\uD83d\ude00\n"","
  ++ s2b """piece_length"":4,""files"":[[[""d"",""x""],3],{""length"":0,""path"":[]}]}" ++ [10%N].
Definition edited_info : info :=
  {| i_files := Some [{| f_path := [s2b "d"; s2b "x"]; f_length := 3%N |}; {| f_path := []; f_length := 0%N |}]; i_length := None;
     i_name := [195; 169; 47; 240; 159; 152; 128; 10]%N; i_piece_length := 4%N; i_pieces := [0; 255]%N |}.
Example C64_example :
  from_file (fun _ => Some (NFile edited)) [] = Ret (Ok edited_info) /\ describes_torrent edited edited_info.
Proof.
  assert (H : from_file (fun _ => Some (NFile edited)) [] = Ret (Ok edited_info)) by (vm_compute; reflexivity).
  split; [exact H|]. apply C64_accepted in H as (c & E & _ & D). injection E as <-. exact D.
Qed.
(** What the standards say of an escape, a pair of surrogates and a number, without the program. *)
Example C64_example_meaning :
  meaning (s2b "\ud83D\uDE00!") [240; 159; 152; 128; 33]%N /\ utf8 128512 [240; 159; 152; 128]%N /\
  number (s2b "-1.50e+3") /\ ~ number (s2b "01") /\ ~ text_of [47%N] [192; 175]%N.
Proof.
  assert (U : utf8 128512 [240; 159; 152; 128]%N).
  { apply (utf8_4 0 31 24 0); try reflexivity. - intros H; discriminate H. - split; [reflexivity|]. intros [_ H]. apply H. reflexivity. }
  split.
  { change (s2b "\ud83D\uDE00!") with (92 :: 117 :: s2b "d83D" ++ 92 :: 117 :: s2b "DE00" ++ [33])%N.
    change [240; 159; 152; 128; 33]%N with ([240; 159; 152; 128] ++ [33])%N.
    apply me_pair with (x := 61%N) (y := 512%N); try reflexivity.
    - exists 100%N, 56%N, 51%N, 68%N, 13%N, 8%N, 3%N, 13%N. repeat split.
    - exists 68%N, 69%N, 48%N, 48%N, 13%N, 14%N, 0%N, 0%N. repeat split.
    - exact U.
    - repeat constructor; discriminate. }
  split; [exact U|]. split.
  { exists [45%N], (s2b "1"), (s2b ".50"), (s2b "e+3").
    assert (D : forall l, l <> [] -> forallb (fun b => (48 <=? b)%N && (b <=? 57)%N) l = true -> digits l).
    { intros l NE H. split; auto. apply Forall_forall. intros b I. rewrite forallb_forall in H. specialize (H b I).
      apply andb_prop in H as [A B]. apply N.leb_le in A, B. split; auto. }
    repeat split; try (apply D; [discriminate|reflexivity]).
    - right; left; reflexivity.
    - intros t H. discriminate H.
    - right. exists (s2b "50"). split; [apply D; [discriminate|reflexivity]|reflexivity].
    - right. exists 101%N, [43%N], (s2b "3"). repeat split; try (apply D; [discriminate|reflexivity]); cbn; auto. }
  split.
  { intros (m & i & f & e & M & ((F & NE) & Z) & FP & EP & E). destruct M as [<-|[<-|[]]]; [|discriminate E].
    destruct i as [|x [|y i]]; [congruence| |].
    - injection E as _ E. destruct FP as [->|(d & _ & ->)]; [|discriminate E]. destruct EP as [->|(c & s & d & [<-|[<-|[]]] & _ & _ & ->)]; discriminate E.
    - injection E as <- _ _. specialize (Z _ eq_refl). discriminate Z. }
  intros T. assert (V : utf8_valid [192; 175]%N = true) by (apply C64_text; eauto). discriminate V.
Qed.
