(** Specification of version numbers, independent of how they are parsed and compared. *)
From Verif Require Import Py Sklearn.
Set Implicit Arguments.

(** A number: one or more decimal digits (leading zeros are fine). *)
Definition decimal (ds : pystr) : N := fold_left (fun n c => 10 * n + (c - 48))%N ds 0%N.
Definition number_text (n : N) (s : pystr) : Prop := s <> [] /\ forallb is_digit s = true /\ n = decimal s.
(** A prerelease: nothing, or an "a" (97) or "b" (98) and a number. *)
Inductive prerelease_text : option (N * N) -> pystr -> Prop :=
| no_prerelease : prerelease_text None []
| a_prerelease c n s : c = 97%N \/ c = 98%N -> number_text n s -> prerelease_text (Some (c, n)) (c :: s).
(** "X.Y" or "X.Y.Z", and then maybe a prerelease, and then maybe a new line. *)
Inductive version_text : version -> pystr -> Prop :=
| two_numbers a b p sa sb sp eol : number_text a sa -> number_text b sb -> prerelease_text p sp -> eol = [] \/ eol = [10%N] ->
    version_text (Version a b 0 p) (sa ++ py "." ++ sb ++ sp ++ eol)
| three_numbers a b c p sa sb sc sp eol : number_text a sa -> number_text b sb -> number_text c sc -> prerelease_text p sp -> eol = [] \/ eol = [10%N] ->
    version_text (Version a b c p) (sa ++ py "." ++ sb ++ py "." ++ sc ++ sp ++ eol).

(** Which version is older: the first number that is different decides; with the same numbers, a prerelease is older than the release, an alpha
    older than a beta, and among them, the number decides. *)
Inductive older : version -> version -> Prop :=
| older_major a b c p a' b' c' p' : (a < a')%N -> older (Version a b c p) (Version a' b' c' p')
| older_minor a b c p b' c' p' : (b < b')%N -> older (Version a b c p) (Version a b' c' p')
| older_patch a b c p c' p' : (c < c')%N -> older (Version a b c p) (Version a b c' p')
| older_release a b c p : older (Version a b c (Some p)) (Version a b c None)
| older_letter a b c l n l' n' : (l < l')%N -> older (Version a b c (Some (l, n))) (Version a b c (Some (l', n')))
| older_number a b c l n n' : (n < n')%N -> older (Version a b c (Some (l, n))) (Version a b c (Some (l, n'))).
