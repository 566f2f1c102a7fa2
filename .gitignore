.lia.cache
.nia.cache
.nra.cache
