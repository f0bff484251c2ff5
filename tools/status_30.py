done("C234","partial",["C234_extensible","C234_compressed","C234_file","C234_no_fact","C234_no_rate","C234_adpcm_refuted","C234_depth_refuted"],"Files with four bits for a sample (ADPCM) are refused, as the bytes for a sample are rounded down to 0. The depth is one byte, samples of 32 bytes have depth 0.")
done("C235","partial",["C235_fields","C235_channels_refuted","C235_opus_speakers","C235_aac_speakers_partial","C235_aac_speakers_refuted","C235_wav_speakers_refuted","C235_opus_rate_refuted","C235_empty","C235_unread","C235_unread_refuted"],"Of more than 255 channels the lower eight bits are reported. AAC with channel configuration 7 has 7 channels and 8 speakers, the mask of a WAV file is not compared with its channels. The sample rate of Opus is that of the input and may be 0. An MPEG file whose properties are not read has the mask of stereo.")
