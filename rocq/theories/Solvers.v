(** The conflict solvers guessit gives to its patterns, one kind of pattern per solver. The other patterns have none: the longer one is kept.
    The kinds cover every [conflict_solver] of rules/properties and of config/options.json. *)
From Verif Require Import Py Text Sort Rebulk Conflicts EpisodeRules.
From Coq Require Import Arith.

Inductive kind :=
| Year          (** date.py:27-34, 36-44: years and weeks *)
| Dated         (** date.py:55-60 *)
| Extension     (** container.py:27-34 *)
| ContainerWord (** container.py:48-55 *)
| Checksum      (** crc.py:26-29 *)
| Identifier    (** crc.py:31-34 *)
| CountryFound  (** country.py:35-40 *)
| Expected      (** title.py:39-43, release_group.py:63-66 *)
| Size4k        (** screen_size.py:48-49 *)
| SizeBoth      (** screen_size.py:50-51 *)
| SourceHd      (** source.py:78-82, 110-112 *)
| AudioCodec    (** audio_codec.py:46-50 *)
| DtsHd         (** config/options.json:64 *)
| BitRate       (** config/options.json:109-115 *)
| Bonus         (** config/options.json:119-129 *)
| SpecialEd     (** config/options.json:234 *)
| Numbered      (** episodes.py:155-164, 224-345: seasons and episodes *)
| Plain.

Section Solvers.
  (** the string, the initiator of a match and the children of an initiator *)
  Context (s : str) (ini : mt -> mt) (kids : mt -> list mt).
  (** [len(match.raw)] *)
  Definition raw_len (m : mt) : nat := m_raw_end m - m_raw_start m.
  (** country.py:38-40: [match.value not in (babelfish.Country('US'), babelfish.Country('GB'))]; a country is known by its code *)
  Definition big_country (m : mt) : bool := mval_eqb (m_value m) (MvStr (lit "US")) || mval_eqb (m_value m) (MvStr (lit "GB")).
  (** config/options.json:64 *)
  Definition dts_solver : solver := fun _ o => if has_name (lit "audio_codec") o then RemoveOther else Default.
  (** config/options.json:112 *)
  Definition bit_rate_solver : solver := fun _ o => if has_name (lit "audio_channels") o && negb (has_tag (lit "weak-audio_channels") o) then RemoveMatch else RemoveOther.
  (** config/options.json:127 *)
  Definition bonus_solver : solver := fun _ o => if smem (m_name o) [lit "video_codec"; lit "episode"] && negb (has_tag (lit "weak-episode") o) then RemoveMatch else Default.
  (** config/options.json:234 *)
  Definition special_solver : solver := fun _ o => if has_name (lit "episode_details") o && mval_eqb (m_value o) (MvStr (lit "Special")) then RemoveOther else Default.
  (** crc.py:27-29, 32-34 *)
  Definition checksum_solver : solver := fun _ o => if smem (m_name o) [lit "episode"; lit "season"] then RemoveOther else Default.
  Definition identifier_solver : solver := fun _ o => if smem (m_name o) [lit "episode"; lit "season"] then RemoveMatch else Default.
  (** country.py:37-40 *)
  Definition country_solver : solver := fun m o => if negb (has_name (lit "language") o) || negb (big_country m) then RemoveMatch else RemoveOther.
  (** title.py:42, release_group.py:65 *)
  Definition expected_solver : solver := fun _ _ => RemoveOther.
  (** screen_size.py:49, 51 *)
  Definition size_4k_solver : solver := fun _ o => if has_name (lit "screen_size") o then Default else RemoveMatch.
  Definition size_both_solver : solver := fun _ o => if has_name (lit "screen_size") o then Default else RemoveOther.
  (** source.py:37-39 [demote_other] *)
  Definition source_solver : solver := fun _ o => if smem (m_name o) [lit "other"; lit "release_group"] then RemoveOther else Default.
  (** audio_codec.py:29-44 [audio_codec_priority] *)
  Definition audio_solver : solver := fun m o =>
    if has_name (lit "audio_codec") m && smem (m_name o) [lit "audio_profile"; lit "audio_channels"] then RemoveOther
    else if smem (m_name m) [lit "audio_profile"; lit "audio_channels"] && has_name (lit "audio_codec") o then RemoveMatch else Default.
  (** episodes.py:56-83, as modelled in EpisodeRules.v *)
  Definition numbered_solver : solver := fun m o =>
    match conflict_solver s ini kids m o with VFirst => RemoveMatch | VSecond => RemoveOther | VDefault => Default end.
  Definition solver_for (k : kind) : option solver :=
    match k with
    | Year => Some year_solver | Dated => Some date_solver | Extension => Some extension_solver | ContainerWord => Some container_solver
    | Checksum => Some checksum_solver | Identifier => Some identifier_solver | CountryFound => Some country_solver | Expected => Some expected_solver
    | Size4k => Some size_4k_solver | SizeBoth => Some size_both_solver | SourceHd => Some source_solver | AudioCodec => Some audio_solver
    | DtsHd => Some dts_solver | BitRate => Some bit_rate_solver | Bonus => Some bonus_solver | SpecialEd => Some special_solver
    | Numbered => Some numbered_solver | Plain => None
    end.
End Solvers.
