.lia.cache
.nia.cache
.nra.cache
.lra.cache
