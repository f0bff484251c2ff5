prop("C48","What strict timestamp parsing accepts",
 "In strict mode Timestamp::parse accepts only (the first 19 bytes of) the ISO 8601 extended or basic form of the timestamp it returns, followed by nothing unless the seconds are present; both forms are accepted in every mode; and whatever any mode returns re-parses to itself from its to_string().",
 "every byte string, every mode","unbounded input; the space of malformed timestamps",
 ["lofty/src/tag/items/timestamp.rs: parse, segment, Display"],
 "Soundness of the digit loop in strict mode; reuse of the round-trip lemma.")
prop("C49","Unpadded fields in lenient modes",
 "Outside strict mode a month, day, hour, minute or second written as '06', ' 6' or '6' is read as 6.",
 "every timestamp and every way of writing its fields","combinations of spellings over five fields",
 ["lofty/src/tag/items/timestamp.rs: segment"],
 "Expected false for the last field ('2024-6' is too short and the month is dropped): refute; prove for every spelling whose last field is not a bare digit.")
