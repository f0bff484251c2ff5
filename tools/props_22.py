MQ="lofty/src/mp4/properties.rs: "
prop("C191","The duration of an MP4 file is that of its first audio track",
 "Tracks without a sound handler are passed over, whatever they contain; the duration is the media header's number of units over its time scale, rounded to the nearest millisecond, or 0 without a time scale.",
 "every file made of atoms with an audio track whose sample description is inside, any atoms and tracks around it, both versions of the media header, every option","all shapes of atom trees and all numbers",
 [MQ+"read_properties, find_audio_trak, Mdhd::parse", "lofty/src/mp4/moov.rs: Moov::parse"],
 "Induction on tracks and atoms with a reader that knows its position.")
prop("C192","MPEG-4 audio is described by its decoder configuration",
 "Codec, audio object type, sample rate and number of channels are those of the elementary stream descriptor: rates by index or written out, channels by configuration (or of the sample entry for configuration 0), extended object types.",
 "every descriptor, all object types, rates and channel configurations, any atoms behind","all configurations, descriptor sizes of one to four bytes",
 [MQ+"mp4a_properties, Descriptor::read"],
 "The bits of the configuration as a number. Expected to fail for extended types, rates written out and eight channels.")
prop("C193","ALAC and FLAC in MP4 are described by their own headers",
 "Codec, sample rate, channels and bit depth are those of the ALAC configuration and of the FLAC stream information.",
 "all field values, any atoms behind","all values; sample entries with further atoms",
 [MQ+"alac_properties, flac_properties"],
 "Reading at known positions. Expected to fail for ALAC sample entries with further atoms.")
prop("C194","Other sample entries give the numbers of the entry; protected ones are marked",
 "An entry of a kind that is not told apart gives sample rate and channels of the entry and no codec; the file counts as protected exactly if its entry is drms; an MPEG-4 entry behind it is found.",
 "every four-character kind, every entry content","all kinds and contents",
 [MQ+"parse_stsd"],
 "Reading at known positions. Expected to fail for entries behind, whose position is not computed from the size of the first.")
prop("C195","The bit rates of an MP4 file are sizes over durations",
 "The overall bit rate is the size of the file over the duration; the audio bit rate is that of the media data, or the average of the descriptor when every sample lasts one unit; strict mode requires media data.",
 "every file of C191","all sizes and durations",
 [MQ+"read_properties, mdat_length"],
 "Arithmetic on what C191 reads.")
prop("C196","Reading an MP4 file ends, without a panic",
 "Reading any bytes ends and gives a file or an error.",
 "every sequence of bytes, every option","all files, in particular damaged ones and very large ones",
 ["lofty/src/mp4/read/mod.rs: read_from, skip_atom, find_child_atom", "lofty/src/mp4/atom_info.rs: AtomInfo::read", "lofty/src/mp4/moov.rs: Moov::find, Moov::parse", MQ+"read_properties"],
 "Every step of every loop moves the reader by eight bytes or leaves nothing to read. Expected to fail at 4 GiB, and for several overflows.")
prop("C197","The order of the atoms in a media does not change the properties",
 "Media header, handler and media information can come in any order.",
 "every permutation of the atoms in mdia","all orders",
 [MQ+"find_audio_trak"],
 "The result of C191 as a function of content. Expected to fail when the media information comes before the handler.")
