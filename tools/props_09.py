prop("C95","Saving an OGG file replaces the comment packet and nothing else",
 "After saving to an Opus, Vorbis or Speex file the header pages hold the same identification (and setup) packet and the new comment packet, in well-formed pages of the stream's serial number numbered from 0; the pages after them have the same packets, flags, positions and serial numbers, are numbered consecutively, and all checksums are right.",
 "every well-formed file, every tag","unbounded files, packets over any number of pages",
 ["lofty/src/ogg/tag/write.rs: write_to, write, create_metadata_packet"],
 "Prove, with the file described by its pages.")
prop("C96","Saving an OGG file loses no data",
 "All data of the file other than the comments is still there after saving: audio beginning on the last header page, pages after bytes that are no page, other logical streams, and the binary data that RFC 7845 lets follow the Opus comments.",
 "every file","needs odd but legal files",
 ["lofty/src/ogg/tag/write.rs: write_to, write"],
 "Look for counterexamples; C95 gives the files for which it holds.")
prop("C97","A crash while saving an OGG file",
 "Which states a crash during saving can leave behind.",
 "every file, tag and crash point","crash points",
 ["lofty/src/ogg/tag/write.rs: write_to"],
 "Prove that the empty file is among them whenever saving would succeed.")
prop("C98","A saved OGG file reads back as saved",
 "Reading an OGG file after saving gives the fields, pictures and vendor that were saved.",
 "every well-formed file, every tag","unbounded tags and files",
 ["lofty/src/ogg/tag/write.rs: write_to","lofty/src/ogg/read.rs: read_from, read_comments"],
 "Prove with the vendor of the file; refute that the tag's vendor is stored.")
prop("C99","Saving an OGG file twice is like saving it once",
 "Saving the same tag again leaves every byte of the file as it is.",
 "every well-formed file, every tag","relation of two runs",
 ["lofty/src/ogg/tag/write.rs: write_to"],
 "Prove.")
prop("C100","The last page of an OGG file is found",
 "find_last_page gives the last page of the file.",
 "every file","needs capture patterns in odd places",
 ["lofty/src/ogg/mod.rs: find_last_page","ogg_pager: Page::read"],
 "Prove when any later capture pattern is followed by what cannot be a header; refute with a fake header and with a pattern near the end of the file.")
prop("C101","Properties of OGG files",
 "Channels, rates, gain and bit rates are the stored ones; the duration is the difference of the granule positions (minus pre-skip for Opus) divided by the rate, to the nearest millisecond; the other bit rates are bits per millisecond; the Opus channel mask is the layout of RFC 7845.",
 "all field values and files","all bit patterns",
 ["lofty/src/ogg/opus/properties.rs: read_properties","lofty/src/ogg/vorbis/properties.rs: read_properties","lofty/src/ogg/speex/properties.rs: read_properties"],
 "Prove for files with a positive duration.")
prop("C102","Reading OGG files is total",
 "No file content makes reading an OGG file panic.",
 "every byte sequence","all inputs",
 ["lofty/src/ogg/read.rs: read_from","lofty/src/ogg/opus/properties.rs","lofty/src/ogg/vorbis/properties.rs","lofty/src/ogg/speex/properties.rs"],
 "List all causes of a panic and prove that there are no others; refute in general.")
