(** Specification vocabulary for the remaining contents of a beatmap: events,
    length and tempo range. *)
From Verif Require Import Parser SpecParser.

(** ** Event rows *)
Definition is_background (fs : list str) : bool := str_eqb (field 0 fs) (lit "Background") || str_eqb (field 0 fs) (lit "0").
Definition is_break (fs : list str) : bool := str_eqb (field 0 fs) (lit "Break") || str_eqb (field 0 fs) (lit "2").
Definition quote : ascii := chr 34.
(** the text without its quotation marks *)
Inductive unquoted : str -> str -> Prop :=
| unquoted_nil : unquoted [] []
| unquoted_quote s t : unquoted s t -> unquoted (quote :: s) t
| unquoted_other c s t : c <> quote -> unquoted s t -> unquoted (c :: s) (c :: t).
Definition break_of (fs : list str) : pause := mkPause (parse_f64 (field 1 fs)) (parse_f64 (field 2 fs)).

(** ** The time a hit object row contributes to the length: the end of a
    spinner or hold note, the start of a circle or slider, as a whole number. *)
Definition before_colon (s t : str) : Prop := ~ In ":"%char t /\ (s = t \/ exists u, s = t ++ ":"%char :: u).
Definition row_time (fs : list str) (t : Z) : Prop :=
  match type_of fs with
  | TCircle | TSlider => t = atoi (field 2 fs)
  | TSpinner => t = atoi (field 5 fs)
  | THold => exists u, before_colon (field 5 fs) u /\ t = atoi u
  | TOther => t = 0
  end.

(** ** Beats per minute of the rows with a non-negative beat length *)
Definition tempo_row (fs : list str) : bool := fle f0 (parse_f64 (nth 1 fs [])).
Definition tempo (fs : list str) : f64 := fdiv (fq 60000 1) (parse_f64 (nth 1 fs [])).
Definition tempos (rows : list (list str)) : list f64 := map tempo (filter tempo_row rows).
