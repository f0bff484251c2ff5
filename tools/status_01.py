done("C01","proved",["C01_synch_exact"])
done("C02","proved",["C02_widening_exact"])
done("C03","proved",["C03_stream_chunk_independent","C03_stream_total"])
done("C04","proved",["C04_unsynchronise_inverse"])
done("C05","proved",["C05_page_roundtrip","C05_page_canonical"],"Both directions: read after write, and bytes that parse are exactly what writing the parsed page gives.")
done("C06","proved",["C06_paginate_wellformed"],"Sequence numbers are stated modulo 2^32.")
done("C07","partial",["C07_packets_roundtrip_refuted","C07_packets_roundtrip_partial"],"Finding: empty packets are lost. Everything else is returned unchanged: the result is the list of non-empty packets.")
done("C08","partial",["C08_flags","C08_granule_refuted","C08_granule_partial"],"Finding: a packet whose length is a non-zero multiple of 8160 gets the granule position on its last full page although it ends on the following one. Flags are exact.")
done("C09","proved",["C09_crc_is_polynomial","C09_crc_detects_bursts","C09_written_checksums"],"Stronger: any change within a window of 4 bytes is detected.")
done("C10","proved",["C10_set_get","C10_histories"])
done("C38","partial",["C38_interrupted_read_refuted"],"Refuted: the full statement is false of the code; nothing beyond C03 is proved for interrupted readers.")
done("C39","proved",["C39_read_follows_lacing"])
done("C40","proved",["C40_read_count_prefix"])
done("C41","proved",["C41_read_total"])
