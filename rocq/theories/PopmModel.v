(** Model of lofty/src/tag/items/popularimeter.rs. *)
From Verif Require Export Base Str TagType.

(** lines 54-68; [rating as u8] is [stars]. *)
Inductive star : Set := One | Two | Three | Four | Five.
Definition stars (s : star) : N := match s with One => 1 | Two => 2 | Three => 3 | Four => 4 | Five => 5 end.

(** lines 76-86: trait RatingProvider. A custom provider is an arbitrary value of this record. *)
Record provider : Type := mkProvider {
  supports_email : list N -> bool;
  rate : tag_type -> star -> N;
  convert_raw : tag_type -> N -> star }.

(** [u8::saturating_mul] *)
Definition sat_mul8 (a b : N) : N := N.min 255 (a * b).

(** lines 315-317 *)
Definition WMP_EMAIL := $"Windows Media Player 9 Series".
Definition MUSICBEE_EMAIL := $"MusicBee".
Definition PICARD_EMAIL := $"users@musicbrainz.org".

(** lines 172-216 *)
Definition musicbee_rate (tt : tag_type) (r : star) : N :=
  match tt with
  | Id3v2 => match r with One => 1 | Two => 64 | Three => 128 | Four => 196 | Five => 255 end
  | _ => sat_mul8 (stars r) 20
  end.
Definition musicbee_convert (tt : tag_type) (v : N) : star :=
  match tt with
  | Id3v2 => if v <=? 1 then One else if v <=? 64 then Two else if v <=? 128 then Three
             else if v <=? 196 then Four else Five
  | _ => if v <=? 20 then One else if v <=? 40 then Two else if v <=? 60 then Three
         else if v <=? 80 then Four else Five
  end.
Definition MusicBee : provider := mkProvider (list_eqb MUSICBEE_EMAIL) musicbee_rate musicbee_convert.
(** lines 146-162 *)
Definition DefaultProvider : provider := mkProvider (fun _ => true) musicbee_rate musicbee_convert.
(** lines 218-239 *)
Definition WindowsMediaPlayer : provider :=
  mkProvider (list_eqb WMP_EMAIL) (fun _ => musicbee_rate Id3v2) (fun _ => musicbee_convert Id3v2).
(** lines 241-289 *)
Definition picard_rate (tt : tag_type) (r : star) : N :=
  match tt with Id3v2 => sat_mul8 (stars r) 51 | _ => sat_mul8 (stars r) 5 end.
Definition picard_convert (tt : tag_type) (v : N) : star :=
  match tt with
  | Id3v2 => if v <=? 51 then One else if v <=? 102 then Two else if v <=? 153 then Three
             else if v <=? 204 then Four else Five
  | _ => if v <=? 5 then One else if v <=? 10 then Two else if v <=? 15 then Three
         else if v <=? 20 then Four else Five
  end.
Definition Picard : provider := mkProvider (list_eqb PICARD_EMAIL) picard_rate picard_convert.

(** lines 291-303: the value; [play_counter] is a u64. *)
Record popm : Type := mkPopm { pm_email : option (list N); pm_provider : provider; pm_rating : star; pm_count : N }.

(** The dispatch shared by [mapped] (355-367) and [from_str] (432-443); [custom] is custom_provider(). *)
Definition dispatch (custom : provider) (email : list N) : option provider :=
  if list_eqb email WMP_EMAIL then Some WindowsMediaPlayer
  else if list_eqb email MUSICBEE_EMAIL then Some MusicBee
  else if list_eqb email PICARD_EMAIL then Some Picard
  else if supports_email custom email then Some custom else None.

Definition nonempty (s : list N) : option (list N) := match s with [] => None | _ => Some s end.

(** lines 337-344 *)
Definition popm_custom (custom : provider) (email : list N) (r : star) (count : N) : popm :=
  mkPopm (Some email) custom r count.
(** lines 346-377 *)
Definition popm_mapped (custom : provider) (email : list N) (tt : tag_type) (v count : N) : option popm :=
  match dispatch custom email with
  | Some p => Some (mkPopm (nonempty email) p (convert_raw p tt v) count)
  | None => None
  end.
(** lines 410-412 *)
Definition mapped_value (p : popm) (tt : tag_type) : N := rate (pm_provider p) tt (pm_rating p).

(** std: [str::splitn(n, c)] *)
Fixpoint split_once (c : N) (s : list N) : option (list N * list N) :=
  match s with
  | [] => None
  | x :: s' => if x =? c then Some ([], s')
               else match split_once c s' with Some (a, b) => Some (x :: a, b) | None => None end
  end.
Fixpoint splitn (n : nat) (c : N) (s : list N) : list (list N) :=
  match n with
  | O => []
  | S O => [s]
  | S n' => match split_once c s with Some (a, b) => a :: splitn n' c b | None => [s] end
  end.

Definition I32_MAX : N := 2147483647.
(** lines 414-451. The rating is parsed as an i32 (integer fallback); a negative one matches no arm, as a
    number too large does, so parsing as an unsigned number up to i32::MAX is equivalent. *)
Definition popm_from_str (custom : provider) (s : list N) : option popm :=
  match splitn 3 124 s with
  | [email; r; c] =>
      match parse_uint U64_MAX c, parse_uint I32_MAX r with
      | Some count, Some v =>
          match (if v =? 1 then Some One else if v =? 2 then Some Two else if v =? 3 then Some Three
                 else if v =? 4 then Some Four else if v =? 5 then Some Five else None) with
          | Some st => match dispatch custom email with
                       | Some p => Some (mkPopm (nonempty email) p st count)
                       | None => None
                       end
          | None => None
          end
      | _, _ => None
      end
  | _ => None
  end.

(** lines 491-496 *)
Definition popm_display (p : popm) : list N :=
  match pm_email p with Some e => e | None => [] end ++ [124] ++ to_dec (stars (pm_rating p)) ++ [124] ++ to_dec (pm_count p).
